(** Model of the adaptive Runge-Kutta integrator.
    Sources: include/softlib/Integrator/Integrator.tcc, RungeKutta.tcc, RKDP45.tcc and
    include/softlib/RungeKutta.h, RKDP45.h.

    [slibreal_t] is taken to be the real numbers (no rounding); an error estimate may also
    be infinite or not a number.  The components [v 0 .. v (N-1)] of a function [v] are the
    elements of a [Vector<N>]; the elementwise vector operations are those of C31. *)
From Verif Require Import Base AlgebraModel.
From Coq Require Import ZArith Reals.
Local Open Scope Z_scope.

Definition vec : Type := nat -> R.

(** * Memory blocks (malloc/realloc) *)
(** [None] in a cell: allocated, but never written (Integrator.h:20-25). *)
Record block : Type := Block { b_size : Z; b_cell : Z -> option R }.
(** The null pointer (Integrator.tcc:17-26). *)
Definition no_block : block := Block 0 (fun _ => None).
(** [realloc] (assumed to succeed) keeps the old contents (Integrator.tcc:150-155). *)
Definition realloc (b : block) (size : Z) : block :=
  Block size (fun i => if i <? b_size b then b_cell b i else None).
(** Integrator.tcc:61-85. *)
Definition bread (b : block) (i : Z) : outcome R :=
  if ((0 <=? i) && (i <? b_size b))%bool then match b_cell b i with Some x => Ok x | None => UB end else UB.
(** Integrator.tcc:157-161. *)
Definition bwrite (b : block) (i : Z) (x : R) : outcome block :=
  if ((0 <=? i) && (i <? b_size b))%bool then Ok (Block (b_size b) (fun j => if j =? i then Some x else b_cell b j))
  else UB.
(** [unsigned int] arithmetic (Integrator.tcc:148-162). *)
Definition w32 (z : Z) : Z := z mod 2 ^ 32.

(** An error estimate as a double: a number, infinity or NaN (RungeKutta.tcc:37-47, 144-176). *)
Inductive err : Type := ENum (x : R) | EInf | ENaN.

Section Integrator.
Variable N : nat.
Let NZ : Z := Z.of_nat N.

(** Vector.tcc:216-220 [ToArray]. *)
Fixpoint write_vec (n : nat) (b : block) (off : Z) (v : vec) : outcome block :=
  match n with
  | O => Ok b
  | S k => obind (write_vec k b off v) (fun b' => bwrite b' (off + Z.of_nat k) (v k))
  end.
(** Vector.tcc:62-67, assignment from an array; [v] is the vector that is assigned to. *)
Fixpoint read_vec (n : nat) (b : block) (off : Z) (v : vec) : outcome vec :=
  match n with
  | O => Ok v
  | S k => obind (read_vec k b off v) (fun v' => obind (bread b (off + Z.of_nat k)) (fun x => Ok (upd v' k x)))
  end.

(** * Integrator.tcc *)
(** Integrator.h:17-24. *)
Record storage : Type := Storage
  { s_time : block; s_sol : block; s_der : block; s_n : Z; s_alloc : Z }.
(** Integrator.tcc:17-26, constructor. *)
Definition new_storage : storage := Storage no_block no_block no_block 0 0.

(** Integrator.tcc:148-162 [StoreSolution]; INTEGRATOR_ALLOC_SIZE is 1000 (Integrator.h:12). *)
Definition store_solution (st : storage) (t : R) (y yp : vec) : outcome storage :=
  let st1 :=
    if s_alloc st <=? s_n st then
      let a := w32 (s_alloc st + 1000) in
      Storage (realloc (s_time st) a) (realloc (s_sol st) (NZ * a)) (realloc (s_der st) (NZ * a)) (s_n st) a
    else st in
  obind (bwrite (s_time st1) (s_n st1) t) (fun tm =>
  obind (write_vec N (s_sol st1) (w32 (s_n st1 * NZ)) y) (fun so =>
  obind (write_vec N (s_der st1) (w32 (s_n st1 * NZ)) yp) (fun de =>
  Ok (Storage tm so de (w32 (s_n st1 + 1)) (s_alloc st1))))).

(** Integrator.tcc:137-138. *)
Definition steps_taken (st : storage) : Z := s_n st.
(** Integrator.tcc:170-173, 180-183, 192-195; of the returned pointers, element [j] is read. *)
Definition time_at (st : storage) (i : Z) : outcome R := bread (s_time st) i.
Definition solution_at (st : storage) (i : Z) (j : nat) : outcome R := bread (s_sol st) (w32 (i * NZ) + Z.of_nat j).
Definition derivative_at (st : storage) (i : Z) (j : nat) : outcome R := bread (s_der st) (w32 (i * NZ) + Z.of_nat j).
(** Integrator.tcc:61-64. *)
Definition last_time (st : storage) : outcome R :=
  if s_n st <=? 0 then Ok 0%R else bread (s_time st) (s_n st - 1).
(** Integrator.tcc:71-74 and 82-85 followed by the assignment to a vector; reading through
    the null pointer is undefined. *)
Definition last_solution (st : storage) (v : vec) : outcome vec :=
  if s_n st <=? 0 then UB else read_vec N (s_sol st) (w32 ((s_n st - 1) * NZ)) v.
Definition last_derivative (st : storage) (v : vec) : outcome vec :=
  if s_n st <=? 0 then UB else read_vec N (s_der st) (w32 ((s_n st - 1) * NZ)) v.

(** Integrator.tcc:47-55 and RungeKutta.tcc:71-78 [InitialValue]; [f] is the equation
    ([None]: SetEquation was not called, the pointer is not initialised). *)
Definition initial_value (f : option (R -> vec -> vec)) (st : storage) (y0 : vec) : outcome storage :=
  match f with
  | None => UB
  | Some f => store_solution (Storage (s_time st) (s_sol st) (s_der st) 0 (s_alloc st)) 0 y0 (f 0%R y0)
  end.

(** * Step size control (RungeKutta.tcc) *)
Local Open Scope R_scope.
(** RungeKutta.h:23-28: parameters, and 30: tolerances. *)
Record params : Type := Params
  { g_safe : R; g_beta : R; g_alpha : R; g_minscale : R; g_maxscale : R; g_atol : R; g_rtol : R }.
(** RungeKutta.h:23-28 and RungeKutta.tcc:22-27. *)
Definition default_params (tol : R) : params :=
  Params (9/10) 0 (2/10 - 0 * (75/100)) (2/10) 10 tol tol.
(** [h], [optimal_step], [errold], [previous_step_rejected] (RungeKutta.h:10-11, 19, 30). *)
Record control : Type := Control { c_h : R; c_opt : R; c_errold : R; c_rejected : bool }.
(** [h] is not initialised by the constructor, but set before it is used (RungeKutta.tcc:22-27). *)
Definition new_control : control := Control 0 1 (1/10000) false.

(** RungeKutta.tcc:144-176 [UpdateTimestep].  pow(inf, -alpha) is 0, 1 or inf according to
    the sign of alpha; with alpha < 0 the new step would be infinite ([None]). *)
Definition update_timestep (p : params) (c : control) (e : err) : bool * option control :=
  match e with
  | ENaN => (false, Some (Control (c_h c) (c_h c * (1/10)) (c_errold c) true))
  | EInf =>
      (false, if Rlt_dec 0 (g_alpha p) then Some (Control (c_h c) (c_h c * Rmax (g_safe p * 0) (g_minscale p)) (c_errold c) true)
              else if Req_EM_T (g_alpha p) 0
              then Some (Control (c_h c) (c_h c * Rmax (g_safe p * 1) (g_minscale p)) (c_errold c) true)
              else None)
  | ENum x =>
      if Rle_dec x 1 then
        let scale :=
          if Req_EM_T x 0 then g_maxscale p
          else let s := g_safe p * Rpower x (- g_alpha p) * Rpower (c_errold c) (g_beta p) in
               let s := if Rlt_dec s (g_minscale p) then g_minscale p else s in
               if Rlt_dec (g_maxscale p) s then g_maxscale p else s in
        let opt := if c_rejected c then c_h c * Rmin scale 1 else c_h c * scale in
        (true, Some (Control (c_h c) opt (Rmax x (1/10000)) false))
      else
        let scale := Rmax (g_safe p * Rpower x (- g_alpha p)) (g_minscale p) in
        (false, Some (Control (c_h c) (c_h c * scale) (c_errold c) true))
  end.

(** RungeKutta.tcc:37-47 [EstimateError]; the third argument is the member [yerr].
    A zero denominator gives infinity, or NaN when the numerator is zero too. *)
Definition sk (p : params) (y1 y2 : vec) (i : nat) : R := g_atol p + g_rtol p * Rmax (Rabs (y1 i)) (Rabs (y2 i)).
Fixpoint error_sum (n : nat) (p : params) (y1 y2 yerr : vec) : err :=
  match n with
  | O => ENum 0
  | S k =>
      match error_sum k p y1 y2 yerr with
      | ENaN => ENaN
      | r =>
          if Req_EM_T (sk p y1 y2 k) 0 then (if Req_EM_T (yerr k) 0 then ENaN else EInf)
          else match r with ENum s => ENum (s + (yerr k / sk p y1 y2 k) * (yerr k / sk p y1 y2 k)) | _ => EInf end
      end
  end.
Definition estimate_error (p : params) (y1 y2 yerr : vec) : err :=
  match error_sum N p y1 y2 yerr with ENum s => ENum (sqrt (s / INR N)) | r => r end.

(** What [InnerStep] leaves in the members yout, dydxout, yerr, k3, k4, k5 and k6
    (RungeKutta.h:16, RKDP45.h:10). *)
Record attempt : Type := Attempt
  { a_yout : vec; a_dydxout : vec; a_yerr : vec; a_k3 : vec; a_k4 : vec; a_k5 : vec; a_k6 : vec }.

(** RungeKutta.tcc:94-102: the loop of [Step]; [inner] and [est] are the virtual InnerStep
    and the error estimate of the attempt, [eps] is REAL_EPSILON.  [None]: more than [fuel]
    attempts, or a step size that is not a number. *)
Fixpoint try_steps (inner : R -> R -> vec -> vec -> attempt) (est : vec -> attempt -> err) (eps : R) (p : params)
  (fuel : nat) (c : control) (T : R) (y dydx : vec) : option (outcome attempt * control) :=
  match fuel with
  | O => None
  | S k =>
      let a := inner T (c_h c) y dydx in
      match update_timestep p c (est y a) with
      | (_, None) => None
      | (true, Some c1) => Some (Ok a, c1)
      | (false, Some c1) =>
          let c2 := Control (c_opt c1) (c_opt c1) (c_errold c1) (c_rejected c1) in
          if Rle_dec (Rabs (c_h c2)) (Rabs T * eps) then Some (Throw, c2)
          else try_steps inner est eps p k c2 T y dydx
      end
  end.

(** * The Dormand-Prince method (RKDP45.h, RKDP45.tcc) *)
(** RKDP45.h:16-23. *)
Definition c2 : R := 2/10.   Definition c3 : R := 3/10.   Definition c4 : R := 8/10.   Definition c5 : R := 8/9.
Definition a21 : R := 2/10.
Definition a31 : R := 3/40.  Definition a32 : R := 9/40.
Definition a41 : R := 44/45. Definition a42 : R := -56/15. Definition a43 : R := 32/9.
Definition a51 : R := 19372/6561. Definition a52 : R := -25360/2187. Definition a53 : R := 64448/6561. Definition a54 : R := -212/729.
Definition a61 : R := 9017/3168. Definition a62 : R := -355/33. Definition a63 : R := 46732/5247.
Definition a64 : R := 49/176. Definition a65 : R := -5103/18656.
Definition a71 : R := 35/384. Definition a73 : R := 500/1113. Definition a74 : R := 125/192.
Definition a75 : R := -2187/6784. Definition a76 : R := 11/84.
Definition e1 : R := 71/57600. Definition e3 : R := -71/16695. Definition e4 : R := 71/1920.
Definition e5 : R := -17253/339200. Definition e6 : R := 22/525. Definition e7 : R := -1/40.
(** RKDP45.h:27-33. *)
Definition d1 : R := -12715105075/11282082432. Definition d3 : R := 87487479700/32700410799.
Definition d4 : R := -10690763975/1880347072. Definition d5 : R := 701980252875/199316789632.
Definition d6 : R := -1453857185/822651844. Definition d7 : R := 69997945/29380423.

(** RKDP45.tcc:16-41 [InnerStep] for the equation [f]. *)
Definition inner_step (f : R -> vec -> vec) (T h : R) (y dydx : vec) : attempt :=
  let k2 := f (T + c2*h) (fun i => y i + h*a21*dydx i) in
  let k3 := f (T + c3*h) (fun i => y i + (h*a31)*dydx i + (h*a32)*k2 i) in
  let k4 := f (T + c4*h) (fun i => y i + (h*a41)*dydx i + (h*a42)*k2 i + (h*a43)*k3 i) in
  let k5 := f (T + c5*h) (fun i => y i + (h*a51)*dydx i + (h*a52)*k2 i + (h*a53)*k3 i + (h*a54)*k4 i) in
  let k6 := f (T + h) (fun i => y i + (h*a61)*dydx i + (h*a62)*k2 i + (h*a63)*k3 i + (h*a64)*k4 i + (h*a65)*k5 i) in
  let yout := fun i => y i + (h*a71)*dydx i + (h*a73)*k3 i + (h*a74)*k4 i + (h*a75)*k5 i + (h*a76)*k6 i in
  let dydxout := f (T + h) yout in
  let yerr := fun i => (h*e1)*dydx i + (h*e3)*k3 i + (h*e4)*k4 i + (h*e5)*k5 i + (h*e6)*k6 i + (h*e7)*dydxout i in
  Attempt yout dydxout yerr k3 k4 k5 k6.

(** RKDP45.h:11-12. *)
Record dense : Type := Dense { r_c1 : block; r_c2 : block; r_c3 : block; r_c4 : block; r_c5 : block; r_alloc : Z }.
Definition no_dense : dense := Dense no_block no_block no_block no_block no_block 0.

(** RKDP45.tcc:75-80: the five coefficients of one component. *)
Definition coef1 (h : R) (y1 y2 dydx1 dydx2 : vec) (a : attempt) (i : nat) : R := y1 i.
Definition coef2 (h : R) (y1 y2 dydx1 dydx2 : vec) (a : attempt) (i : nat) : R := y2 i - y1 i.
Definition coef3 (h : R) (y1 y2 dydx1 dydx2 : vec) (a : attempt) (i : nat) : R := h*dydx1 i - (y2 i - y1 i).
Definition coef4 (h : R) (y1 y2 dydx1 dydx2 : vec) (a : attempt) (i : nat) : R :=
  (y2 i - y1 i) - h*dydx2 i - (h*dydx1 i - (y2 i - y1 i)).
Definition coef5 (h : R) (y1 y2 dydx1 dydx2 : vec) (a : attempt) (i : nat) : R :=
  h*(d1*dydx1 i + d3*a_k3 a i + d4*a_k4 a i + d5*a_k5 a i + d6*a_k6 a i + d7*dydx2 i).
(** RKDP45.tcc:55-82 [PrepareDense]; the five arrays are distinct, so the loop over the
    components fills each of them independently. *)
Definition prepare_dense (n alloc : Z) (r : dense) (h : R) (y1 y2 dydx1 dydx2 : vec) (a : attempt) : outcome dense :=
  let t := w32 ((n - 2) * NZ) in
  let r := if (r_alloc r <? alloc)%Z then
             Dense (realloc (r_c1 r) (NZ * alloc)) (realloc (r_c2 r) (NZ * alloc)) (realloc (r_c3 r) (NZ * alloc))
                   (realloc (r_c4 r) (NZ * alloc)) (realloc (r_c5 r) (NZ * alloc)) alloc
           else r in
  obind (write_vec N (r_c1 r) t (coef1 h y1 y2 dydx1 dydx2 a)) (fun x1 =>
  obind (write_vec N (r_c2 r) t (coef2 h y1 y2 dydx1 dydx2 a)) (fun x2 =>
  obind (write_vec N (r_c3 r) t (coef3 h y1 y2 dydx1 dydx2 a)) (fun x3 =>
  obind (write_vec N (r_c4 r) t (coef4 h y1 y2 dydx1 dydx2 a)) (fun x4 =>
  obind (write_vec N (r_c5 r) t (coef5 h y1 y2 dydx1 dydx2 a)) (fun x5 =>
  Ok (Dense x1 x2 x3 x4 x5 (r_alloc r))))))).

(** The whole integrator object (RungeKutta.h:10-30, Integrator.h:17-28, RKDP45.h:10-12). *)
Record rk : Type := RK
  { k_eqn : option (R -> vec -> vec); k_par : params; k_store : storage; k_ctrl : control; k_dense : dense;
    k_on : bool;                 (* store_dense_coeffs *)
    k_y : vec; k_dydx : vec;     (* the members y and dydx *)
    k_att : attempt }.           (* the members yout .. k6 *)
(** Vector.tcc:13-16. *)
Definition zero_vec : vec := fun _ => 0.
(** RKDP45.h:34; Vector constructors fill with zeros. *)
Definition new_rk (tol : R) : rk :=
  RK None (default_params tol) new_storage new_control no_dense true zero_vec zero_vec
     (Attempt zero_vec zero_vec zero_vec zero_vec zero_vec zero_vec zero_vec).

(** RungeKutta.tcc:71-78 with 125-134: after the first point has been stored nothing is
    prepared for dense output, because there is one time step only. *)
Definition rk_initial_value (s : rk) (y0 : vec) : outcome rk :=
  obind (initial_value (k_eqn s) (k_store s) y0) (fun st =>
  Ok (RK (k_eqn s) (k_par s) st (k_ctrl s) (k_dense s) (k_on s) (k_y s) (k_dydx s) (k_att s))).

(** RungeKutta.tcc:86-112 [Step] with StoreSolution 125-134.  Result: the returned time, and
    the object afterwards ([None]: see [try_steps]). *)
Definition rk_step (eps : R) (fuel : nat) (s : rk) : option (outcome R * rk) :=
  match k_eqn s, last_solution (k_store s) (k_y s), last_derivative (k_store s) (k_dydx s), last_time (k_store s) with
  | Some f, Ok y, Ok dydx, Ok T =>
      let c := Control (c_opt (k_ctrl s)) (c_opt (k_ctrl s)) (c_errold (k_ctrl s)) (c_rejected (k_ctrl s)) in
      match try_steps (inner_step f) (fun y a => estimate_error (k_par s) y (a_yout a) (a_yerr a)) eps (k_par s) fuel c T y dydx with
      | None => None
      | Some (Ok a, c') =>
          let h := c_h c' in
          match store_solution (k_store s) (T + h) (a_yout a) (a_dydxout a) with
          | Ok st =>
              if (k_on s && (1 <? s_n st)%Z)%bool then
                match prepare_dense (s_n st) (s_alloc st) (k_dense s) h y (a_yout a) dydx (a_dydxout a) a with
                | Ok r => Some (Ok (T + h), RK (k_eqn s) (k_par s) st c' r (k_on s) y dydx a)
                | _ => Some (UB, s)
                end
              else Some (Ok (T + h), RK (k_eqn s) (k_par s) st c' (k_dense s) (k_on s) y dydx a)
          | _ => Some (UB, s)
          end
      | Some (_, c') => Some (Throw, RK (k_eqn s) (k_par s) (k_store s) c' (k_dense s) (k_on s) y dydx (k_att s))
      end
  | _, _, _, _ => Some (UB, s)
  end.

(** Setters: Integrator.tcc:130, RungeKutta.tcc:181-192. *)
Definition set_equation (s : rk) (f : R -> vec -> vec) : rk :=
  RK (Some f) (k_par s) (k_store s) (k_ctrl s) (k_dense s) (k_on s) (k_y s) (k_dydx s) (k_att s).
Definition set_params (s : rk) (p : params) : rk :=
  RK (k_eqn s) p (k_store s) (k_ctrl s) (k_dense s) (k_on s) (k_y s) (k_dydx s) (k_att s).
Definition toggle_dense (s : rk) (b : bool) : rk :=
  RK (k_eqn s) (k_par s) (k_store s) (k_ctrl s) (k_dense s) b (k_y s) (k_dydx s) (k_att s).

(** * Dense output *)
(** RKDP45.tcc:102-103: [while (it+2 < ntimesteps && time[it+1] < T) it++], where [k] is
    [ntimesteps - (it+2)] (zero if negative). *)
Fixpoint advance (k : nat) (st : storage) (it : Z) (T : R) : outcome Z :=
  match k with
  | O => Ok it
  | S k' => obind (bread (s_time st) (it + 1)) (fun t => if Rlt_dec t T then advance k' st (it + 1) T else Ok it)
  end.
(** RKDP45.tcc:116-117. *)
Definition dense_poly (s r1 r2 r3 r4 r5 : R) : R := r1 + s*(r2 + (1-s)*(r3 + s*(r4 + (1-s)*r5))).
Fixpoint dense_components (n : nat) (r : dense) (it : Z) (s : R) : outcome (list R) :=
  match n with
  | O => Ok []
  | S j =>
      obind (dense_components j r it s) (fun l =>
      let i := w32 (w32 (it * NZ) + Z.of_nat j) in
      obind (bread (r_c1 r) i) (fun r1 => obind (bread (r_c2 r) i) (fun r2 => obind (bread (r_c3 r) i) (fun r3 =>
      obind (bread (r_c4 r) i) (fun r4 => obind (bread (r_c5 r) i) (fun r5 =>
      Ok (l ++ [dense_poly s r1 r2 r3 r4 r5])))))))
  end.
(** RKDP45.tcc:94-120 [OutputDense]: for every requested time the N components written to
    [out].  [it] is kept from one request to the next. *)
Fixpoint output_dense (s : rk) (it : Z) (times : list R) : outcome (list (list R)) :=
  match times with
  | [] => Ok []
  | T :: r =>
      let st := k_store s in
      obind (advance (Z.to_nat (s_n st - (it + 2))) st it T) (fun it =>
      obind (bread (s_time st) (it + 1)) (fun t1 =>
      if Rlt_dec t1 T then Throw else
      obind (bread (s_time st) it) (fun t0 =>
      obind (dense_components N (k_dense s) it ((T - t0) / (t1 - t0))) (fun l =>
      obind (output_dense s it r) (fun ls => Ok (l :: ls))))))
  end.

(** Integrator.tcc:99-122 [OutputDense] with equidistant times; [rnd] is the rounding of the
    results of the arithmetic operations.  The first component is what is left in [outt]. *)
Fixpoint set_last (l : list R) (x : R) : list R :=
  match l with [] => [] | [_] => [x] | y :: r => y :: set_last r x end.
Definition uniform_times (rnd : R -> R) (nt : nat) (tmin tmax : R) : outcome (list R) :=
  match nt with
  | O => Throw
  | S O => if Req_EM_T tmin tmax then Ok (set_last [rnd (tmin + rnd (INR 0 * 1))] tmax) else Throw
  | _ => let dt := rnd (rnd (tmax - tmin) / (INR nt - 1)) in
         Ok (set_last (map (fun i => rnd (tmin + rnd (INR i * dt))) (seq 0 nt)) tmax)
  end.
Definition output_dense_uniform (rnd : R -> R) (s : rk) (nt : nat) (tmin tmax : R) : outcome (list R * list (list R)) :=
  obind (uniform_times rnd nt tmin tmax) (fun ts => obind (output_dense s 0 ts) (fun l => Ok (ts, l))).

End Integrator.
