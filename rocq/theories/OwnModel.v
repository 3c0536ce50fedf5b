(** Configuration blocks with their settings as objects on the heap: who owns which setting.

    ConfigModel describes one block tree as a value.  Here a program holds several block trees,
    the settings are objects that several trees can point to, objects are freed, and using a
    freed object is undefined behaviour.  Settings are [SettingScript] objects.  Blocks are
    nodes of trees.  Simplification: AddSubBlock of an existing block object (ConfigBlock.cpp:81-88), by
    which a caller could put one object into two trees, is not among the calls. *)
From Verif Require Import Base ConfigModel.

(** The heap (new / delete in ConfigBlock.cpp:23,28,42,60,74,347): the setting at each address, or
    nothing if it was never allocated or has been freed, and the next fresh addresses of settings
    and blocks.  Simplification: addresses of freed objects are not reused. *)
Record heap : Type := Heap { h_set : nat -> option setting; h_next : nat; h_bnext : nat }.

(** Reading a setting through its pointer (ConfigBlock.cpp:55-58,164-173,205-212,356-363): undefined if it
    has been freed. *)
Definition h_get (h : heap) (i : nat) : outcome setting :=
  match h_set h i with Some s => Ok s | None => UB end.

(** Changing a setting in place (ConfigBlock.cpp:58,168,359). *)
Definition h_put (h : heap) (i : nat) (s : setting) : heap :=
  Heap (fun j => if Nat.eqb j i then Some s else h_set h j) (h_next h) (h_bnext h).

(** new SettingScript (ConfigBlock.cpp:28, Interpreter.cpp:158). *)
Definition h_new (h : heap) (s : setting) : heap * nat :=
  (Heap (fun j => if Nat.eqb j (h_next h) then Some s else h_set h j) (S (h_next h)) (h_bnext h), h_next h).

(** delete of a setting (ConfigBlock.cpp:39,60): undefined if it has been freed already. *)
Definition h_free (h : heap) (i : nat) : outcome heap :=
  match h_set h i with
  | Some _ => Ok (Heap (fun j => if Nat.eqb j i then None else h_set h j) (h_next h) (h_bnext h))
  | None => UB
  end.

(** new ConfigBlock (ConfigBlock.cpp:23,74,347): a fresh block address. *)
Definition h_block (h : heap) : heap * nat :=
  (Heap (h_set h) (h_next h) (S (h_bnext h)), h_bnext h).

(** Configuration.h:71-115 [ConfigBlock]: address, parent pointer ([None] is nullptr), type, name, stored
    secondary type, pointers to the settings, sub-blocks. *)
Inductive oblock : Type :=
| OB (addr : nat) (parent : option nat) (ty : nat) (name sec : str) (sets : list nat) (subs : list oblock).

(** Configuration.h:71-115, the fields of a block. *)
Definition ob_addr (b : oblock) : nat := match b with OB a _ _ _ _ _ _ => a end.
(** ConfigBlock.cpp:139-141 [GetParent]. *)
Definition ob_parent (b : oblock) : option nat := match b with OB _ p _ _ _ _ _ => p end.
(** Configuration.h:71-115. *)
Definition ob_type (b : oblock) : nat := match b with OB _ _ t _ _ _ _ => t end.
(** Configuration.h:71-115. *)
Definition ob_name (b : oblock) : str := match b with OB _ _ _ n _ _ _ => n end.
(** ConfigBlock.cpp:93-95 [GetAllSettings]. *)
Definition ob_sets (b : oblock) : list nat := match b with OB _ _ _ _ _ s _ => s end.
(** ConfigBlock.cpp:100-102 [GetAllSubBlocks]. *)
Definition ob_subs (b : oblock) : list oblock := match b with OB _ _ _ _ _ _ s => s end.

(** The search of HasSetting (ConfigBlock.cpp:205-212), GetSetting (164-173) and MergeSetting (356-363): address
    of the first setting of that name; every setting before it is read. *)
Fixpoint o_find (h : heap) (sets : list nat) (name : str) : outcome (option nat) :=
  match sets with
  | [] => Ok None
  | i :: r => obind (h_get h i) (fun s =>
      if str_eqb (sname s) name then Ok (Some i) else o_find h r name)
  end.

(** ConfigBlock.cpp:164-173 [GetSetting]: marks the setting as touched and returns its address. *)
Definition o_get (h : heap) (sets : list nat) (name : str) : outcome (heap * option nat) :=
  obind (o_find h sets name) (fun o =>
  match o with
  | None => Ok (h, None)
  | Some i => obind (h_get h i) (fun s => Ok (h_put h i (mkSet (sname s) (svals s) true), Some i))
  end).

(** SettingScript.cpp:130-132 [OverwriteValues], on the setting at [i] with the values of the one at [j]. *)
Definition o_overwrite (h : heap) (i j : nat) : outcome heap :=
  obind (h_get h j) (fun t => obind (h_get h i) (fun s =>
  Ok (h_put h i (mkSet (sname s) (svals t) (stouched s))))).

(** ConfigBlock.cpp:54-67 [AddSetting] of the setting at [j]: if there is one of that name, it is touched and
    overwritten and the argument is deleted; otherwise the pointer is appended. *)
Definition o_add (h : heap) (sets : list nat) (j : nat) : outcome (heap * list nat) :=
  obind (h_get h j) (fun t =>
  obind (o_find h sets (sname t)) (fun o =>
  match o with
  | Some _ =>
      obind (o_get h sets (sname t)) (fun p =>
      match snd p with
      | Some i => obind (o_overwrite (fst p) i j) (fun h2 => obind (h_free h2 j) (fun h3 => Ok (h3, sets)))
      | None => UB
      end)
  | None => Ok (h, sets ++ [j])
  end)).

(** ConfigBlock.cpp:26-28, SettingScript.cpp:40-42: copies of all settings. *)
Fixpoint o_copy_sets (h : heap) (sets : list nat) : outcome (heap * list nat) :=
  match sets with
  | [] => Ok (h, [])
  | i :: r => obind (h_get h i) (fun s =>
      let (h1, j) := h_new h (copy_setting s) in
      obind (o_copy_sets h1 r) (fun q => Ok (fst q, j :: snd q)))
  end.

(** ConfigBlock.cpp:14-29, copy constructor: new settings and new sub-blocks; the parent pointer is the parent
    pointer of the source. *)
Fixpoint o_copy (b : oblock) (h : heap) {struct b} : outcome (heap * oblock) :=
  match b with
  | OB _ par t n s sets subs =>
      let (h0, a) := h_block h in
      obind ((fix go (l : list oblock) (h : heap) : outcome (heap * list oblock) :=
                match l with
                | [] => Ok (h, [])
                | c :: r => obind (o_copy c h) (fun p => obind (go r (fst p)) (fun q => Ok (fst q, snd p :: snd q)))
                end) subs h0) (fun q =>
      obind (o_copy_sets (fst q) sets) (fun q2 =>
      Ok (fst q2, OB a par t n (match s with [] => n | _ => s end) (snd q2) (snd q))))
  end.

(** ConfigBlock.cpp:259-261,127-134,221-228: index of the first sub-block of that type and name. *)
Fixpoint o_find_sub (subs : list oblock) (ty : nat) (name : str) : option nat :=
  match subs with
  | [] => None
  | b :: r =>
      if Nat.eqb (ob_type b) ty && str_eqb (ob_name b) name then Some 0
      else match o_find_sub r ty name with Some i => Some (S i) | None => None end
  end.

(** ConfigBlock.cpp:317-327, the settings part of [Merge], over the pointers [theirs]: a new setting is appended
    as the same object (line 322). *)
Fixpoint o_merge_sets (h : heap) (mine theirs : list nat) (allow_new : bool)
  : outcome (heap * list nat * list str) :=
  match theirs with
  | [] => Ok (h, mine, [])
  | j :: r =>
      obind (h_get h j) (fun t =>
      obind (o_find h mine (sname t)) (fun o =>
      match o with
      | Some i => obind (o_overwrite h i j) (fun h1 => o_merge_sets h1 mine r allow_new)
      | None =>
          if allow_new then obind (o_add h mine j) (fun p => o_merge_sets (fst p) (snd p) r allow_new)
          else obind (o_merge_sets h mine r allow_new) (fun q => Ok (fst q, sname t :: snd q))
      end))
  end.

(** ConfigBlock.cpp:311-355 [Merge] of [cb] into [this]: the heap, the new [this] and the names that are
    unknown.  Simplification: [cb] is not [this] nor inside it nor around it. *)
Fixpoint o_merge (cb : oblock) (h : heap) (this : oblock) (allow_new : bool) {struct cb}
  : outcome (heap * oblock * list str) :=
  match cb with
  | OB _ _ _ _ _ csets csubs =>
      match this with
      | OB a par t n sec sets subs =>
          obind (o_merge_sets h sets csets allow_new) (fun q1 =>
          obind ((fix go (theirs : list oblock) (h : heap) (mine : list oblock) : outcome (heap * list oblock * list str) :=
                    match theirs with
                    | [] => Ok (h, mine, [])
                    | b :: r =>
                        match o_find_sub mine (ob_type b) (ob_name b) with
                        | Some i =>
                            match nth_error mine i with
                            | Some m =>
                                obind (o_merge b h m allow_new) (fun p =>
                                obind (go r (fst (fst p)) (upd_nth i (fun _ => snd (fst p)) mine)) (fun q =>
                                Ok (fst q, snd p ++ snd q)))
                            | None => UB
                            end
                        | None =>
                            if allow_new then
                              obind (o_copy b h) (fun p => go r (fst p) (mine ++ [snd p]))
                            else obind (go r h mine) (fun q => Ok (fst q, ob_name b :: snd q))
                        end
                    end) csubs (fst (fst q1)) subs) (fun q2 =>
          Ok (fst (fst q2), OB a par t n sec (snd (fst q1)) (snd (fst q2)), snd q1 ++ snd q2)))
      end
  end.

(** ConfigBlock.cpp:37-40, freeing the settings of a block. *)
Fixpoint o_free_sets (h : heap) (sets : list nat) : outcome heap :=
  match sets with
  | [] => Ok h
  | i :: r => obind (h_free h i) (fun h1 => o_free_sets h1 r)
  end.

(** ConfigBlock.cpp:36-45, destructor. *)
Fixpoint o_delete (b : oblock) (h : heap) {struct b} : outcome heap :=
  match b with
  | OB _ _ _ _ _ sets subs =>
      obind (o_free_sets h sets) (fun h1 =>
      (fix go (l : list oblock) (h : heap) : outcome heap :=
         match l with
         | [] => Ok h
         | c :: r => obind (o_delete c h) (fun h2 => go r h2)
         end) subs h1)
  end.

(** ConfigBlock.cpp:73-88 [AddSubBlock]: the new block has [this] as its parent; if there is one of that type and name
    nothing is added (the new object is lost). *)
Definition o_sub (h : heap) (b : oblock) (ty : nat) (name sec : str) : heap * oblock :=
  match b with
  | OB a par t n s sets subs =>
      let (h1, a') := h_block h in
      match o_find_sub subs ty name with
      | Some _ => (h1, b)
      | None => (h1, OB a par t n s sets (subs ++ [OB a' (Some a) ty name sec [] []]))
      end
  end.

(** The block reached by a list of indices into GetAllSubBlocks (ConfigBlock.cpp:100-102). *)
Fixpoint o_at (p : list nat) (b : oblock) : option oblock :=
  match p with
  | [] => Some b
  | i :: p' => match nth_error (ob_subs b) i with Some c => o_at p' c | None => None end
  end.

(** The tree with the block at that place changed (ConfigBlock.cpp:100-102: the pointers lead into the tree). *)
Fixpoint o_set (p : list nat) (x : oblock) (b : oblock) : oblock :=
  match p with
  | [] => x
  | i :: p' => match b with
               | OB a par t n s sets subs => OB a par t n s sets (upd_nth i (o_set p' x) subs)
               end
  end.

(** * Programs *)

(** A call (ConfigBlock.cpp:14-88, 164-173, 311-355) in a program whose variables hold pointers to block trees; the variables are numbered, and a block in a
    tree is given by indices into GetAllSubBlocks. *)
Inductive oop : Type :=
| ONew (i : nat) (ty : nat) (name sec : str)                 (* i = new ConfigBlock(ty, name, sec), ConfigBlock.cpp:30-35 *)
| OSub (i : nat) (p : list nat) (ty : nat) (name sec : str)   (* AddSubBlock, ConfigBlock.cpp:73-88 *)
| OAdd (i : nat) (p : list nat) (name : str) (vals : list str) (* AddSetting(new SettingScript(name, vals)), ConfigBlock.cpp:54-67 *)
| OGet (i : nat) (p : list nat) (name : str)                  (* GetSetting, ConfigBlock.cpp:164-173, and GetTextVector *)
| OCopy (i j : nat) (p : list nat)                            (* j = new ConfigBlock(block of i), ConfigBlock.cpp:14-29 *)
| OMerge (i : nat) (p : list nat) (j : nat) (q : list nat) (allow : bool) (* Merge, ConfigBlock.cpp:311-355 *)
| ODelete (i : nat).                                          (* delete i, ConfigBlock.cpp:36-45 *)

(** What a call shows (ConfigBlock.cpp:164-173, 311-355): the values of the setting found, or the unknown names. *)
Inductive obs : Type :=
| ObsNone
| ObsValues (v : option (list str))
| ObsNames (l : list str).

(** The program's state: heap and variables (ConfigBlock.cpp:14-45); [None] is a variable that holds no object. *)
Record oworld : Type := OWorld { ow_heap : heap; ow_root : nat -> option oblock }.

(** Assignment to a variable (ConfigBlock.cpp:14-45). *)
Definition set_root {A} (f : nat -> A) (i : nat) (v : A) : nat -> A := fun k => if Nat.eqb k i then v else f k.

(** One call (ConfigBlock.cpp:14-45, 54-88, 164-173, 311-355).  Using a variable without object or an index outside of
    GetAllSubBlocks is undefined. *)
Definition o_step (w : oworld) (o : oop) : outcome (oworld * obs) :=
  let h := ow_heap w in
  match o with
  | ONew i ty name sec =>
      let (h1, a) := h_block h in
      Ok (OWorld h1 (set_root (ow_root w) i (Some (OB a None ty name sec [] []))), ObsNone)
  | OSub i p ty name sec =>
      match ow_root w i with
      | None => UB
      | Some b =>
          match o_at p b with
          | None => UB
          | Some x => let (h1, x') := o_sub h x ty name sec in
                      Ok (OWorld h1 (set_root (ow_root w) i (Some (o_set p x' b))), ObsNone)
          end
      end
  | OAdd i p name vals =>
      match ow_root w i with
      | None => UB
      | Some b =>
          match o_at p b with
          | None => UB
          | Some (OB a par t n s sets subs) =>
              let (h1, j) := h_new h (mkSet name vals false) in
              obind (o_add h1 sets j) (fun q =>
              Ok (OWorld (fst q) (set_root (ow_root w) i (Some (o_set p (OB a par t n s (snd q) subs) b))), ObsNone))
          end
      end
  | OGet i p name =>
      match ow_root w i with
      | None => UB
      | Some b =>
          match o_at p b with
          | None => UB
          | Some x =>
              obind (o_get h (ob_sets x) name) (fun q =>
              match snd q with
              | None => Ok (OWorld (fst q) (ow_root w), ObsValues None)
              | Some k => obind (h_get (fst q) k) (fun s =>
                          Ok (OWorld (fst q) (ow_root w), ObsValues (Some (svals s))))
              end)
          end
      end
  | OCopy i j p =>
      match ow_root w i with
      | None => UB
      | Some b =>
          match o_at p b with
          | None => UB
          | Some x => obind (o_copy x h) (fun q =>
                      Ok (OWorld (fst q) (set_root (ow_root w) j (Some (snd q))), ObsNone))
          end
      end
  | OMerge i p j q allow =>
      match ow_root w i, ow_root w j with
      | Some b, Some c =>
          match o_at p b, o_at q c with
          | Some x, Some y =>
              obind (o_merge y h x allow) (fun r =>
              Ok (OWorld (fst (fst r)) (set_root (ow_root w) i (Some (o_set p (snd (fst r)) b))), ObsNames (snd r)))
          | _, _ => UB
          end
      | _, _ => UB
      end
  | ODelete i =>
      match ow_root w i with
      | None => UB
      | Some b => obind (o_delete b h) (fun h1 => Ok (OWorld h1 (set_root (ow_root w) i None), ObsNone))
      end
  end.

(** A program: its calls one after the other (ConfigBlock.cpp:14-45, 54-88, 164-173, 311-355). *)
Fixpoint o_run (w : oworld) (ops : list oop) : outcome (oworld * list obs) :=
  match ops with
  | [] => Ok (w, [])
  | o :: r => obind (o_step w o) (fun q => obind (o_run (fst q) r) (fun q2 => Ok (fst q2, snd q :: snd q2)))
  end.

(** Nothing allocated and no variable set (ConfigBlock.cpp:13-35). *)
Definition o_start : oworld := OWorld (Heap (fun _ => None) 0 0) (fun _ => None).
