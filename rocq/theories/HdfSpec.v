(** Vocabulary for HDF5 and MAT files on disk. *)
From Verif Require Import Base SettingsModel SdtModel SessionModel SFileModel TypedModel HdfModel.
From Coq Require Import ZArith QArith.
Local Open Scope Z_scope.

(** A program: calls with their results, none of them undefined. *)
Inductive run (raw_num : attr -> str) (raw_set : dataset -> str) : hworld -> list (hcall * outcome hanswer) -> hworld -> Prop :=
| run_nil : forall w, run raw_num raw_set w [] w
| run_step : forall w c r w' tr w'', do_hcall raw_num raw_set w c = (r, w') -> r <> UB ->
    run raw_num raw_set w' tr w'' -> run raw_num raw_set w ((c, r) :: tr) w''.
(** Calls that create the file anew / open it for writing. *)
Definition rewrites (f : str) (c : hcall) : Prop := exists i l t, c = HOpen i f MWrite l t.
Definition opens_to_write (f : str) (c : hcall) : Prop := exists i m l t, c = HOpen i f m l t /\ m <> MRead.
(** Nobody has the file open for writing. *)
Definition no_writer (w : hworld) (f : str) : Prop := forall i k, v_obj w i <> Some (HObj k (PFile f true)).

(** Everything that is in the first file is in the second, unchanged. *)
Definition kept (x y : hfile) : Prop :=
  h_block y = h_block x /\ (forall g, In g (h_groups x) -> In g (h_groups y)) /\
  (forall n d, find n (h_sets x) = Some d -> find n (h_sets y) = Some d) /\
  (forall d n a, find_attr d n (h_attrs x) = Some a -> find_attr d n (h_attrs y) = Some a).
(** Same files and objects. *)
Definition same_world (w w' : hworld) : Prop := (forall f, v_fs w' f = v_fs w f) /\ (forall i, v_obj w' i = v_obj w i).
(** Same files except [f], same objects. *)
Definition same_but (f : str) (w w' : hworld) : Prop :=
  (forall g, g <> f -> v_fs w' g = v_fs w g) /\ (forall i, v_obj w' i = v_obj w i).

(** What a variable holds after a call that wrote it, for a reader: writer kind, reader kind,
    write, read, value read. *)
Inductive reads_back : kind -> kind -> hwrite -> hread -> hvalue -> Prop :=
| rb_list : forall k k' n l, reads_back k k' (WNums HDouble n l) (RdVec n) (HVec l)
| rb_list_2 : forall k k' n l, reads_back k k' (WNums HDouble n l) (RdDoubles n) (HMat 1 (Z.of_nat (length l)) [l])
| rb_rows : forall k k' n nc rows, Forall (fun r => length r = nc) rows ->
    reads_back k k' (WRows HDouble n nc rows) (RdDoubles n) (HMat (Z.of_nat (length rows)) (Z.of_nat nc) rows)
| rb_rows_1 : forall k k' n nc rows, reads_back k k' (WRows HDouble n nc rows) (RdVec n) (HVec (concat rows))
| rb_multi : forall k k' n dims data room, (length dims <= room)%nat ->
    reads_back k k' (WMulti HDouble n dims data) (RdMulti n room) (HMulti (Some (dims, data)))
| rb_text : forall k n v, ~ In cNUL v -> reads_back k k (WText n v) (RdText n) (HText v)
| rb_text_mat : forall n v, ~ In cNUL v -> reads_back KHdf KMat (WText n v) (RdText n) (HText v)
| rb_attr : forall k d n v, reads_back k k (WAttr d n v) (RdAttr d n) (HNum v)
| rb_attr_text : forall k d n v, ~ In cNUL v -> reads_back k k (WAttrText d n v) (RdAttrText d n) (HText v)
| rb_has_list : forall k k' t n l, reads_back k k' (WNums t n l) (RdHas n) (HBool true)
| rb_has_rows : forall k k' t n nc rows, reads_back k k' (WRows t n nc rows) (RdHas n) (HBool true)
| rb_has_multi : forall k k' t n dims data, reads_back k k' (WMulti t n dims data) (RdHas n) (HBool true)
| rb_has_text : forall k k' n v, reads_back k k' (WText n v) (RdHas n) (HBool true).

(** What a history says about an object: open, and has it ever been opened since it was made. *)
Definition about (i : nat) (c : hcall) : Prop :=
  match c with HNew j _ | HOpen j _ _ _ _ | HClose j | HDelete j | HWr j _ | HRd j _ => j = i end.
Fixpoint is_open (i : nat) (now : bool) (tr : list (hcall * outcome hanswer)) : bool :=
  match tr with
  | [] => now
  | (HNew j _, _) :: r | (HClose j, _) :: r | (HDelete j, _) :: r => is_open i (if Nat.eqb j i then false else now) r
  | (HOpen j _ _ _ _, Ok _) :: r => is_open i (if Nat.eqb j i then true else now) r
  | _ :: r => is_open i now r
  end.
Fixpoint exists_now (i : nat) (now : bool) (tr : list (hcall * outcome hanswer)) : bool :=
  match tr with
  | [] => now
  | (HNew j _, _) :: r => exists_now i (if Nat.eqb j i then true else now) r
  | (HDelete j, _) :: r => exists_now i (if Nat.eqb j i then false else now) r
  | _ :: r => exists_now i now r
  end.
Fixpoint was_opened (i : nat) (now : bool) (tr : list (hcall * outcome hanswer)) : bool :=
  match tr with
  | [] => now
  | (HNew j _, _) :: r | (HDelete j, _) :: r => was_opened i (if Nat.eqb j i then false else now) r
  | (HOpen j _ _ _ _, Ok _) :: r => was_opened i (if Nat.eqb j i then true else now) r
  | _ :: r => was_opened i now r
  end.
(** A program starts without objects. *)
Definition start (fs : str -> fcontent) : hworld := HWorld fs (fun _ => None).

(** Names of data sets and groups in use. *)
Definition used (x : hfile) (n : str) : Prop := In n (h_groups x) \/ (exists d, find n (h_sets x) = Some d).
(** There is a name behind the last slash, and the group it lies in is there (the root group without
    slash and with one slash at the beginning). *)
Definition in_group (x : hfile) (n : str) : Prop :=
  exists b, b <> [] /\ ~ In "/"%char b /\ (n = b \/ n = "/"%char :: b \/ exists g, n = g ++ "/"%char :: b /\ In g (h_groups x)).
(** Attributes belong to data sets of the file. *)
Definition attrs_ok (x : hfile) : Prop := forall d n a, find_attr d n (h_attrs x) = Some a -> exists e, find d (h_sets x) = Some e.
Definition files_ok (w : hworld) : Prop := forall f x, v_fs w f = FHdf x -> attrs_ok x.
(** The classes MATLAB knows variables by. *)
Definition matlab_class (w : hwrite) : option (str * str) :=
  match w with
  | WRows HDouble n _ _ | WMulti HDouble n _ _ => Some (n, str_of "double")
  | WRows HI32 n _ _ => Some (n, str_of "int32")
  | WRows HI64 n _ _ => Some (n, str_of "int64")
  | WRows HU32 n _ _ => Some (n, str_of "uint32")
  | WRows HU64 n _ _ => Some (n, str_of "uint64")
  | WText n _ => Some (n, str_of "char")
  | _ => None
  end.
