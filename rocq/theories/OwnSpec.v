(** Vocabulary for the ownership of settings: programs in which every block is a value of its own. *)
From Verif Require Import Base ConfigModel BlockSpec OwnModel.

(** A program's variables when every variable holds a whole tree as a value (nothing is shared, nothing is freed
    twice); the calls act on one variable each. *)
Definition vworld : Type := nat -> option cblock.

(** Setting a block at a place in a tree. *)
Definition v_at (P : vworld) (i : nat) (p : list nat) : option cblock :=
  match P i with Some B => get_at p B | None => None end.
Definition v_put (P : vworld) (i : nat) (p : list nat) (x : cblock) : vworld :=
  match P i with Some B => set_root P i (Some (upd_at p (fun _ => x) B)) | None => P end.

(** The calls on values; [None]: the call uses a variable without object or a block that is not there. *)
Definition v_step (P : vworld) (o : oop) : option (vworld * obs) :=
  match o with
  | ONew i ty name sec => Some (set_root P i (Some (CB ty name sec [] [])), ObsNone)
  | OSub i p ty name sec =>
      match v_at P i p with
      | Some x => Some (v_put P i p (fst (add_sub_block x ty name sec)), ObsNone)
      | None => None
      end
  | OAdd i p name vals =>
      match v_at P i p with
      | Some x => Some (v_put P i p (block_add_setting (mkSet name vals false) x), ObsNone)
      | None => None
      end
  | OGet i p name =>
      match v_at P i p with
      | Some (CB t n s sets subs) =>
          Some (v_put P i p (CB t n s (fst (get_setting sets name)) subs),
                ObsValues (option_map svals (snd (get_setting sets name))))
      | None => None
      end
  | OCopy i j p =>
      match v_at P i p with
      | Some x => Some (set_root P j (Some (copy_block x)), ObsNone)
      | None => None
      end
  | OMerge i p j q allow =>
      match v_at P i p, v_at P j q with
      | Some x, Some y => Some (v_put P i p (fst (merge y x allow)), ObsNames (snd (merge y x allow)))
      | _, _ => None
      end
  | ODelete i =>
      match P i with Some _ => Some (set_root P i None, ObsNone) | None => None end
  end.

Fixpoint v_run (P : vworld) (ops : list oop) : option (vworld * list obs) :=
  match ops with
  | [] => Some (P, [])
  | o :: r => match v_step P o with
              | Some (P1, x) => match v_run P1 r with Some (P2, l) => Some (P2, x :: l) | None => None end
              | None => None
              end
  end.

Definition v_start : vworld := fun _ => None.

(** Programs that keep to one rule: after a Merge that may add settings, the block merged from is not used any more, not
    even deleted (its variable may be given a new object).  [given] lists the variables given away. *)
Definition uses (o : oop) (i : nat) : Prop :=
  match o with
  | ONew _ _ _ _ => False
  | OSub k _ _ _ _ | OAdd k _ _ _ | OGet k _ _ | OCopy k _ _ | ODelete k => i = k
  | OMerge k _ l _ _ => i = k \/ i = l
  end.

Definition given_after (given : list nat) (o : oop) : list nat :=
  match o with
  | ONew i _ _ _ => remove Nat.eq_dec i given
  | OCopy _ j _ => remove Nat.eq_dec j given
  | OMerge _ _ j _ true => j :: given
  | _ => given
  end.

Fixpoint keeps_rule (given : list nat) (ops : list oop) : Prop :=
  match ops with
  | [] => True
  | o :: r =>
      (forall i, uses o i -> ~ In i given) /\
      (match o with OMerge i _ j _ _ => i <> j | _ => True end) /\
      keeps_rule (given_after given o) r
  end.

(** All settings a block tree points to. *)
Fixpoint ids (b : oblock) : list nat :=
  match b with OB _ _ _ _ _ sets subs => sets ++ flat_map ids subs end.

(** The tree of values behind a tree of pointers; none of the settings has been freed. *)
Fixpoint shows (c : nat -> option setting) (b : oblock) (x : cblock) {struct b} : Prop :=
  match b, x with
  | OB _ _ t n s sets subs, CB t' n' s' sets' subs' =>
      t = t' /\ n = n' /\ s = s' /\ map c sets = map Some sets' /\
      (fix go (l : list oblock) (l' : list cblock) : Prop :=
         match l, l' with
         | [], [] => True
         | b :: r, x :: r' => shows c b x /\ go r r'
         | _, _ => False
         end) subs subs'
  end.

(** Every block inside the tree has the block around it as its parent. *)
Fixpoint parents_ok (b : oblock) : Prop :=
  match b with
  | OB a _ _ _ _ _ subs =>
      (fix go (l : list oblock) : Prop :=
         match l with [] => True | c :: r => ob_parent c = Some a /\ parents_ok c /\ go r end) subs
  end.

(** Setting object [k] is one of those of the block reached by the types and names in [p]. *)
Definition okey (b : oblock) : nat * str := (ob_type b, ob_name b).
Fixpoint loc (p : list (nat * str)) (k : nat) (b : oblock) : Prop :=
  match p with
  | [] => In k (ob_sets b)
  | key :: p' => exists c, In c (ob_subs b) /\ okey c = key /\ loc p' k c
  end.

(** The tree has a block at [p] and that block has no setting of that name. *)
Definition shared_at (A : cblock) (p : list (nat * str)) (n : str) : Prop :=
  exists X, block_at p A = Some X /\ has_setting (cb_sets X) n = false.

(** The variable a call changes or sets. *)
Definition changes (o : oop) : nat :=
  match o with
  | ONew i _ _ _ | OSub i _ _ _ _ | OAdd i _ _ _ | OGet i _ _ | OMerge i _ _ _ _ | ODelete i => i
  | OCopy _ j _ => j
  end.

(** Calls that make no copy of a block. *)
Definition no_copy (o : oop) : Prop :=
  match o with OCopy _ _ _ => False | OMerge _ _ _ _ allow => allow = false | _ => True end.
