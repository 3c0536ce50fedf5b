(** Vocabulary for C123: integrators that share nothing. *)
From Coq Require Import List ZArith Reals.
From Verif Require Import Base AlgebraModel IntegratorModel IntegratorSpec IntegratorHeapModel.
Import ListNotations.

(** The same programs when every object is a value of its own. *)
Definition do_vcall (N : nat) (eps : R) (fuel : nat) (l : list (option rk)) (c : ocall) : option (outcome (list (option rk))) :=
  match c with
  | ONew tol f => Some (Ok (l ++ [Some (set_equation (new_rk tol) f)]))
  | OCopy k => match nth_error l k with Some (Some s) => Some (Ok (l ++ [Some s])) | _ => Some UB end
  | ODestroy k => match nth_error l k with Some (Some _) => Some (Ok (set_at l k None)) | _ => Some UB end
  | OCall k c =>
      match nth_error l k with
      | Some (Some s) =>
          match do_call N eps fuel s c with
          | Some (Ok s') => Some (Ok (set_at l k (Some s')))
          | Some Throw => Some Throw
          | Some UB => Some UB
          | None => None
          end
      | _ => Some UB
      end
  end.
Fixpoint do_vcalls (N : nat) (eps : R) (fuel : nat) (l : list (option rk)) (cs : list ocall) : option (outcome (list (option rk))) :=
  match cs with
  | [] => Some (Ok l)
  | c :: r => match do_vcall N eps fuel l c with
              | Some (Ok l') => do_vcalls N eps fuel l' r
              | x => x
              end
  end.
(** What the calls on the objects of a program see. *)
Definition seen (p : prog) : list (option rk) := map (option_map (load (p_mem p))) (p_obj p).
(** No integrator is copied. *)
Definition copy_free (cs : list ocall) : Prop := forall k, ~ In (OCopy k) cs.
(** The object [k] of a program, and what is seen of it. *)
Definition object (p : prog) (k : nat) (o : obj) : Prop := nth_error (p_obj p) k = Some (Some o).
(** The number of blocks of memory that have not been freed. *)
Definition allocated (m : mem) : nat :=
  length (filter (fun a => match m_blk m a with Some _ => true | None => false end) (seq 0 (m_next m))).
