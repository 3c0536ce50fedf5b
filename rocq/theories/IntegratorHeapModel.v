(** Integrators as objects whose arrays live on the heap: pointers, copies and destruction.

    IntegratorModel describes one integrator as a value.  Here a program holds several
    integrators; the arrays they allocate are blocks of memory which only their pointers
    name.  Neither Integrator, RungeKutta nor RKDP45 declares a copy constructor or a
    destructor (Integrator.h:14-58, RungeKutta.h:7-57, RKDP45.h:7-46), so the compiler
    supplies the memberwise ones. *)
From Coq Require Import List ZArith Reals.
From Verif Require Import Base AlgebraModel IntegratorModel IntegratorSpec.
Import ListNotations.
Local Open Scope Z_scope.

(** The heap (Integrator.tcc:149-155, RKDP45.tcc:63-71): the block at each address, or nothing
    if it was never allocated or has been freed, and the next fresh address.  Simplification:
    addresses of freed blocks are not reused. *)
Record mem : Type := Mem { m_blk : nat -> option block; m_next : nat }.
Definition no_mem : mem := Mem (fun _ => None) 0.

(** The eight arrays of an RKDP45 object: Integrator.h:20-25 time, solution, derivative and
    RKDP45.h:11 rcont1 .. rcont5. *)
Definition blocks_of (s : rk) : list block :=
  [s_time (k_store s); s_sol (k_store s); s_der (k_store s);
   r_c1 (k_dense s); r_c2 (k_dense s); r_c3 (k_dense s); r_c4 (k_dense s); r_c5 (k_dense s)].
Definition with_blocks (s : rk) (b : list block) : rk :=
  let g i := nth i b no_block in
  RK (k_eqn s) (k_par s) (Storage (g 0%nat) (g 1%nat) (g 2%nat) (s_n (k_store s)) (s_alloc (k_store s))) (k_ctrl s)
     (Dense (g 3%nat) (g 4%nat) (g 5%nat) (g 6%nat) (g 7%nat) (r_alloc (k_dense s)))
     (k_on s) (k_y s) (k_dydx s) (k_att s).
(** The members other than the arrays (RungeKutta.h:10-30, Integrator.h:17-28, RKDP45.h:10-12). *)
Definition rest (s : rk) : rk := with_blocks s [].
(** An object: the eight pointers ([None] is the null pointer), and the other members
    (RungeKutta.h:10-30, Integrator.h:17-28, RKDP45.h:10-12). *)
Record obj : Type := Obj { o_ptr : list (option nat); o_rest : rk }.
(** RKDP45.h:37, Integrator.tcc:17-26 and RKDP45.h:11: all pointers are null. *)
Definition new_obj (tol : R) (f : R -> vec -> vec) : obj :=
  Obj (repeat None 8) (rest (set_equation (new_rk tol) f)).

(** What is found at a pointer (Integrator.tcc:61-85, RKDP45.tcc:97-119): at a null or dangling pointer a
    block without cells, every access to which is undefined ([bread], [bwrite]). *)
Definition at_pointer (m : mem) (p : option nat) : block :=
  match p with
  | None => no_block
  | Some a => match m_blk m a with Some b => b | None => no_block end
  end.
(** The object as a value (Integrator.h:17-28). *)
Definition load (m : mem) (o : obj) : rk := with_blocks (o_rest o) (map (at_pointer m) (o_ptr o)).

(** Allocation of a block (Integrator.tcc:150-152, RKDP45.tcc:64-68). *)
Definition fresh (m : mem) (b : block) : mem * nat :=
  (Mem (fun a => if Nat.eqb a (m_next m) then Some b else m_blk m a) (S (m_next m)), m_next m).
(** The array [p] after a call that leaves [b] in it: a different size means that it went
    through realloc, which frees the old block and is undefined on a dangling pointer
    (Integrator.tcc:149-161, RKDP45.tcc:63-81).  Simplification: realloc always moves. *)
Definition put (m : mem) (p : option nat) (b : block) : outcome (mem * option nat) :=
  match p with
  | None => if b_size b =? 0 then Ok (m, None) else let (m', a) := fresh m b in Ok (m', Some a)
  | Some a =>
      match m_blk m a with
      | None => if b_size b =? 0 then Ok (m, Some a) else UB
      | Some old =>
          if b_size b =? b_size old then Ok (Mem (fun a' => if Nat.eqb a' a then Some b else m_blk m a') (m_next m), Some a)
          else let (m', a') := fresh (Mem (fun a' => if Nat.eqb a' a then None else m_blk m a') (m_next m)) b in
               Ok (m', Some a')
      end
  end.
Fixpoint put_all (m : mem) (ps : list (option nat)) (bs : list block) : outcome (mem * list (option nat)) :=
  match ps, bs with
  | p :: ps, b :: bs => obind (put m p b) (fun r => obind (put_all (fst r) ps bs) (fun r' => Ok (fst r', snd r :: snd r')))
  | _, _ => Ok (m, [])
  end.

(** A program: the heap and the objects it has created; [None] after destruction
    (Integrator.h:14-58, RKDP45.h:7-46). *)
Record prog : Type := Prog { p_mem : mem; p_obj : list (option obj) }.
(** Before the first object is created (RKDP45.h:37). *)
Definition no_prog : prog := Prog no_mem [].

(** New integrators with an equation, copies (implicit copy constructor), destruction
    (implicit destructor) and the calls of IntegratorSpec on the object [k]
    (Integrator.h:14-58, RKDP45.h:7-46). *)
Inductive ocall : Type := ONew (tol : R) (f : R -> vec -> vec) | OCopy (k : nat) | ODestroy (k : nat) | OCall (k : nat) (c : call).
(** List update: the object [k] changes, no other (Integrator.h:14-58). *)
Definition set_at {A : Type} (l : list A) (k : nat) (x : A) : list A := firstn k l ++ x :: skipn (S k) l.

(** Integrator.h:14-58, RungeKutta.h:7-57, RKDP45.h:7-46: the memberwise copy copies the
    pointers, the memberwise destructor does not free what they point to. *)
Definition do_ocall (N : nat) (eps : R) (fuel : nat) (p : prog) (c : ocall) : option (outcome prog) :=
  match c with
  | ONew tol f => Some (Ok (Prog (p_mem p) (p_obj p ++ [Some (new_obj tol f)])))
  | OCopy k => match nth_error (p_obj p) k with
               | Some (Some o) => Some (Ok (Prog (p_mem p) (p_obj p ++ [Some o])))
               | _ => Some UB
               end
  | ODestroy k => match nth_error (p_obj p) k with
                  | Some (Some o) => Some (Ok (Prog (p_mem p) (set_at (p_obj p) k None)))
                  | _ => Some UB
                  end
  | OCall k c =>
      match nth_error (p_obj p) k with
      | Some (Some o) =>
          match do_call N eps fuel (load (p_mem p) o) c with
          | Some (Ok s) =>
              match put_all (p_mem p) (o_ptr o) (blocks_of s) with
              | Ok (m, ps) => Some (Ok (Prog m (set_at (p_obj p) k (Some (Obj ps (rest s))))))
              | Throw => Some Throw
              | UB => Some UB
              end
          | Some Throw => Some Throw
          | Some UB => Some UB
          | None => None
          end
      | _ => Some UB
      end
  end.
Fixpoint do_ocalls (N : nat) (eps : R) (fuel : nat) (p : prog) (cs : list ocall) : option (outcome prog) :=
  match cs with
  | [] => Some (Ok p)
  | c :: r => match do_ocall N eps fuel p c with
              | Some (Ok p') => do_ocalls N eps fuel p' r
              | x => x
              end
  end.

(** Integrator.tcc:180-183 [SolutionAt], and 71-74 [LastSolution] for the last index: the pointer
    that is returned, and the read of element [j] through it at any later time. *)
Definition solution_pointer (N : nat) (o : obj) (i : Z) : option nat * Z :=
  (nth 1 (o_ptr o) None, w32 (i * Z.of_nat N)).
Definition read_pointer (m : mem) (q : option nat * Z) (j : nat) : outcome R :=
  match fst q with
  | None => UB
  | Some a => match m_blk m a with Some b => bread b (snd q + Z.of_nat j) | None => UB end
  end.
