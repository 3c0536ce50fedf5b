(** Histories of operations on one configuration block and lookups by path. *)
From Verif Require Import Base ConfigModel.

Inductive bop : Type :=
| OpSet (n : str) (v : list str)      (* AddSetting *)
| OpGet (n : str)                     (* GetSetting *)
| OpSub (ty : nat) (n sec : str).     (* AddSubBlock *)

Definition block_op (b : cblock) (o : bop) : cblock :=
  match o with
  | OpSet n v => block_add_setting (mkSet n v false) b
  | OpGet n => match b with CB t bn s sets subs => CB t bn s (fst (get_setting sets n)) subs end
  | OpSub ty n sec => fst (add_sub_block b ty n sec)
  end.

(** The block after a history of operations, starting without settings and sub-blocks. *)
Definition run_block (ty : nat) (n sec : str) (ops : list bop) : cblock :=
  fold_left block_op ops (CB ty n sec [] []).

(** Names and values in order of definition. *)
Definition set_names (ops : list bop) : list str :=
  flat_map (fun o => match o with OpSet n _ => [n] | _ => [] end) ops.
Definition values_of (n : str) (ops : list bop) : list (list str) :=
  flat_map (fun o => match o with OpSet m v => if str_eqb m n then [v] else [] | _ => [] end) ops.
Definition sub_keys (ops : list bop) : list (nat * str) :=
  flat_map (fun o => match o with OpSub t n _ => [(t, n)] | _ => [] end) ops.
Definition secs_of (t : nat) (n : str) (ops : list bop) : list str :=
  flat_map (fun o => match o with
                     | OpSub t' n' s => if Nat.eqb t' t && str_eqb n' n then [s] else []
                     | _ => [] end) ops.

Definition str_dec : forall a b : str, {a = b} + {a <> b} := list_eq_dec ascii_dec.
Definition key_dec : forall a b : nat * str, {a = b} + {a <> b}.
Proof. decide equality; [apply str_dec|apply Nat.eq_dec]. Defined.

(** Distinct elements in order of first occurrence. *)
Definition first_occ {A} (dec : forall a b : A, {a = b} + {a <> b}) (l : list A) : list A :=
  rev (nodup dec (rev l)).

(** Looking blocks and settings up by path; a path is a list of (type, name). *)
Fixpoint block_at (p : list (nat * str)) (b : cblock) : option cblock :=
  match p with
  | [] => Some b
  | (ty, n) :: p' =>
      match find (fun c => Nat.eqb (cb_type c) ty && str_eqb (cb_name c) n) (cb_subs b) with
      | Some c => block_at p' c
      | None => None
      end
  end.

Definition values_in (sets : list setting) (n : str) : option (list str) :=
  option_map svals (find (fun s => str_eqb (sname s) n) sets).

Definition setting_at (p : list (nat * str)) (n : str) (b : cblock) : option (list str) :=
  match block_at p b with Some c => values_in (cb_sets c) n | None => None end.

(** Blocks as the reader builds them: unique settings and sub-blocks at every level. *)
Inductive uniq : cblock -> Prop :=
| uniq_CB : forall t n s sets subs,
    NoDup (map sname sets) ->
    NoDup (map (fun c => (cb_type c, cb_name c)) subs) ->
    Forall uniq subs ->
    uniq (CB t n s sets subs).
