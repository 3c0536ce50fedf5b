(** Specification vocabulary for the script grammar and the meaning of scripts. *)
From Verif Require Import Base ConfigModel LexSpec.

(** Abstract syntax of a script. *)
Inductive item : Type :=
| ISet (name : str) (vals : list str)
| IBlk (ty name sec : str) (body : list item).

(** Optional secondary type: nothing, or [( name )]. *)
Inductive sec_tokens : list token -> str -> Prop :=
| sec_none : sec_tokens [] []
| sec_some : forall a b s, sec_tokens [mkTok TLPar a; mkTok TName s; mkTok TRPar b] s.

(** The grammar over token streams. *)
Inductive Derives : list token -> list item -> Prop :=
| D_nil : Derives [] []
| D_set : forall n e v vs s rest items,
    Derives rest items ->
    Derives (mkTok TName n :: mkTok TEquals e :: map (mkTok TValue) (v :: vs)
               ++ mkTok TEndStatement s :: rest)
            (ISet n (v :: vs) :: items)
| D_blk : forall t n st sec o c body bi rest items,
    sec_tokens st sec ->
    Derives body bi ->
    Derives rest items ->
    Derives (mkTok TBlockType t :: mkTok TBlockName n :: st
               ++ mkTok TBlockStart o :: body ++ mkTok TBlockEnd c :: rest)
            (IBlk t n sec bi :: items).

(** Abstract configuration tree: block type, name, secondary type, settings with
    their values, sub-blocks. *)
Inductive atree : Type :=
| AT (ty : nat) (name sec : str) (sets : list (str * list str)) (subs : list atree).

Definition at_type (t : atree) := match t with AT a _ _ _ _ => a end.
Definition at_name (t : atree) := match t with AT _ a _ _ _ => a end.
Definition at_sec (t : atree) := match t with AT _ _ a _ _ => a end.
Definition at_sets (t : atree) := match t with AT _ _ _ a _ => a end.
Definition at_subs (t : atree) := match t with AT _ _ _ _ a => a end.

(** A setting keeps the position of its first definition and the values of its last. *)
Fixpoint put_set (sets : list (str * list str)) (n : str) (v : list str) : list (str * list str) :=
  match sets with
  | [] => [(n, v)]
  | (m, w) :: r => if str_eqb m n then (m, v) :: r else (m, w) :: put_set r n v
  end.

(** A block with the same type and name as an earlier one continues that block;
    otherwise it is new. *)
Fixpoint put_sub (subs : list atree) (ty : nat) (n sec : str) (f : atree -> atree) : list atree :=
  match subs with
  | [] => [f (AT ty n sec [] [])]
  | b :: r => if Nat.eqb (at_type b) ty && str_eqb (at_name b) n then f b :: r
              else b :: put_sub r ty n sec f
  end.

(** The effect of one item on the block it stands in. *)
Fixpoint apply_item (types : list str) (i : item) (t : atree) {struct i} : atree :=
  match i with
  | ISet n v => match t with AT a b c sets subs => AT a b c (put_set sets n v) subs end
  | IBlk ty n sec body =>
      match t with
      | AT a b c sets subs =>
          AT a b c sets
             (put_sub subs (string_to_block_type types ty) n sec
                ((fix go (l : list item) (b : atree) : atree :=
                    match l with [] => b | j :: l' => go l' (apply_item types j b) end) body))
      end
  end.

Definition apply_items (types : list str) : list item -> atree -> atree :=
  fix go (l : list item) (b : atree) : atree :=
    match l with [] => b | j :: l' => go l' (apply_item types j b) end.

Definition empty_root : atree := AT 0 (str_of "<root>") [] [] [].

(** The meaning of a script. *)
Definition meaning (types : list str) (l : list item) : atree := apply_items types l empty_root.

(** Forgetting the bookkeeping (touched flags) of a block tree. *)
Fixpoint erase (b : cblock) : atree :=
  match b with
  | CB t n s sets subs => AT t n s (map (fun x => (sname x, svals x)) sets) (map erase subs)
  end.

(** Writing a tree: first its settings, then its sub-blocks. *)
Fixpoint tree_items (types : list str) (t : atree) : list item :=
  match t with
  | AT _ _ _ sets subs =>
      map (fun p => ISet (fst p) (snd p)) sets ++
      map (fun b => IBlk (nth (at_type b) types []) (at_name b) (at_sec b) (tree_items types b)) subs
  end.

(** The words of a script: [name = v1 v2 ... ;] and [Type name (sec) { ... }]. *)
Fixpoint item_words (i : item) : list str :=
  match i with
  | ISet n vs => n :: str_of "=" :: vs ++ [str_of ";"]
  | IBlk ty n sec body =>
      ty :: n :: (match sec with [] => [] | _ => [str_of "("; sec; str_of ")"] end)
         ++ str_of "{" :: flat_map item_words body ++ [str_of "}"]
  end.
Definition items_words (l : list item) : list str := flat_map item_words l.

(** A word that is not one of the six punctuation words. *)
Definition plain (s : str) : Prop := s <> [] /\ punct_kind s = None.

Definition name_ok (types : list str) (s : str) : Prop := plain s /\ ~ In s types.

(** Well-formed trees: names are plain words that are not block types, every
    setting has at least one value, settings are unique by name and sub-blocks by
    type and name within their block, and block types are registered. *)
Inductive wf_tree (types : list str) : atree -> Prop :=
| wf_AT : forall ty n sec sets subs,
    NoDup (map fst sets) ->
    (forall m vs, In (m, vs) sets -> name_ok types m /\ vs <> [] /\ (forall v, In v vs -> plain v)) ->
    NoDup (map (fun b => (at_type b, at_name b)) subs) ->
    (forall b, In b subs -> at_type b < length types /\ plain (nth (at_type b) types []) /\
                            plain (at_name b) /\
                            (at_sec b = [] \/ name_ok types (at_sec b))) ->
    Forall (wf_tree types) subs ->
    wf_tree types (AT ty n sec sets subs).

(** A root block (type 0, name "<root>") with the given content. *)
Definition is_root (t : atree) : Prop := at_type t = 0 /\ at_name t = str_of "<root>" /\ at_sec t = [].
