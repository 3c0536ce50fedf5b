(** C94: HDF5 and MAT files on disk.  C95: attributes, texts and MATLAB classes.
    Vocabulary: [run] (a program and its results), [rewrites], [opens_to_write], [kept],
    [same_world], [reads_back] (HdfSpec). *)
From Verif Require Import Base SettingsModel SdtModel SdtProofs SessionModel SFileModel SFileProofs TypedModel HdfModel HdfSpec HdfProofs.
From Coq Require Import ZArith QArith Lia.
Local Open Scope Z_scope.

(** * C94 *)
(** What was written to a file is read back from it by every object that has the file open
    later, whatever all objects of the program did in between, unless the file was created anew. *)
Theorem C94_round_trip : forall rn rs w1 i a w2 tr w3 j k k' f m r v,
  v_obj w1 i = Some (HObj k (PFile f true)) -> do_hcall rn rs w1 (HWr i a) = (Ok HDone, w2) ->
  run rn rs w2 tr w3 -> Forall (fun e => ~ rewrites f (fst e)) tr -> v_obj w3 j = Some (HObj k' (PFile f m)) ->
  reads_back k k' a r v -> do_hcall rn rs w3 (HRd j r) = (Ok (HGot v), w3).
Proof. exact hdf_round_trip. Qed.
Print Assumptions C94_round_trip.

(** Nothing in a file is changed or removed, unless the file is created anew. *)
Theorem C94_files_grow : forall rn rs w tr w' f, run rn rs w tr w' -> Forall (fun e => ~ rewrites f (fst e)) tr ->
  forall x, v_fs w f = FHdf x -> exists y, v_fs w' f = FHdf y /\ kept x y.
Proof. exact run_kept. Qed.
Print Assumptions C94_files_grow.

(** A file that no object has open for writing stays as it is. *)
Theorem C94_only_writers_change : forall rn rs w tr w' f, run rn rs w tr w' ->
  Forall (fun e => ~ opens_to_write f (fst e)) tr -> no_writer w f -> v_fs w' f = v_fs w f.
Proof. exact run_frame. Qed.
Print Assumptions C94_only_writers_change.

(** Reading changes nothing; writing to a file opened for reading throws and changes nothing;
    a write to an HDF5 file that throws changes nothing; a write that succeeds changes only
    the file of the object. *)
Theorem C94_single_calls : forall rn rs w i k f b, v_obj w i = Some (HObj k (PFile f b)) ->
  (forall r o w', do_hcall rn rs w (HRd i r) = (o, w') -> w' = w) /\
  (b = false -> forall a, do_hcall rn rs w (HWr i a) = (Throw, w)) /\
  (b = true -> k = KHdf -> forall a w', do_hcall rn rs w (HWr i a) = (Throw, w') -> same_world w w') /\
  (b = true -> forall a w', do_hcall rn rs w (HWr i a) = (Ok HDone, w') -> same_but f w w').
Proof.
  intros rn rs w i k f b O. split; [exact (read_nothing rn rs w i)|]. split; [|split].
  - intros B a. subst b. exact (write_read_only rn rs w i a k f O).
  - intros B K a w' H. subst b k. exact (write_throw_hdf rn rs w i a w' f O H).
  - intros B a w' H. subst b. destruct (write_effect _ _ _ _ _ _ _ _ H O) as (x & y & _ & _ & _ & S). exact S.
Qed.
Print Assumptions C94_single_calls.

(** A write to a MAT file may store the data and throw all the same. *)
Theorem C94_mat_throw_refuted : ~ (forall rn rs w i a w' f, v_obj w i = Some (HObj KMat (PFile f true)) ->
  do_hcall rn rs w (HWr i a) = (Throw, w') -> same_world w w').
Proof.
  intro H. set (w := HWorld (fun _ => FHdf (empty_file [])) (fun _ => Some (HObj KMat (PFile [] true)))).
  assert (Q : same_world w (snd (do_hcall (fun _ => []) (fun _ => []) w (HWr 0 (WMulti HI32 (str_of "a") [1] [1%Q]))))).
  { eapply (H (fun _ => []) (fun _ => []) w 0%nat (WMulti HI32 (str_of "a") [1] [1%Q]) _ []); reflexivity. }
  destruct Q as [Q _]. specialize (Q []). vm_compute in Q. discriminate.
Qed.
Print Assumptions C94_mat_throw_refuted.

(** New variables: a list, a text (HDF5) or a struct can be written exactly if the name is not
    in use and the struct it lies in exists; the call throws otherwise. *)
Theorem C94_names : forall rn rs w i k f x, v_obj w i = Some (HObj k (PFile f true)) -> v_fs w f = FHdf x ->
  (forall a n, (exists t l, a = WNums t n l) \/ a = WGroup n \/ (k = KHdf /\ exists v, a = WText n v) \/
      (k = KMat /\ attrs_ok x /\ exists v, a = WText n v) ->
    (in_group x n /\ ~ used x n -> fst (do_hcall rn rs w (HWr i a)) = Ok HDone) /\
    (~ (in_group x n /\ ~ used x n) -> fst (do_hcall rn rs w (HWr i a)) = Throw)).
Proof.
  intros rn rs w i k f x O F a n A. cbn [do_hcall]. rewrite O, F.
  assert (G : forall z, ((exists y, z = Ok y) <-> in_group x n /\ ~ used x n) /\ z <> UB ->
    kind_write k x a = (match z with Ok y => (Ok tt, y) | Throw => (Throw, x) | UB => (UB, x) end) ->
    (in_group x n /\ ~ used x n -> fst (let (r, h') := kind_write k x a in (obind r (fun _ => Ok HDone), HWorld (put_file (v_fs w) f (FHdf h')) (v_obj w))) = Ok HDone) /\
    (~ (in_group x n /\ ~ used x n) -> fst (let (r, h') := kind_write k x a in (obind r (fun _ => Ok HDone), HWorld (put_file (v_fs w) f (FHdf h')) (v_obj w))) = Throw)).
  { intros z [I U] E. rewrite E. rewrite <- I. destruct z as [y| |]; cbn [fst obind].
    - split; [reflexivity|]. intro C. exfalso. apply C. exists y. reflexivity.
    - split; [intros (y & Y); discriminate|reflexivity].
    - contradiction. }
  destruct A as [(t & l & A) | [A | [(K & v & A) | (K & AO & v & A)]]]; subst a.
  - eapply G; [apply (h_create_iff x n (Dataset t [Z.of_nat (length l)] l))|]. destruct k; reflexivity.
  - eapply G; [apply (h_create_group_iff x n)|]. destruct k; reflexivity.
  - subst k. eapply G; [apply (h_create_iff x n (Dataset HString [Z.of_nat (length v)] (text_data v)))|]. reflexivity.
  - subst k. eapply G; [apply (mat_text_iff x n v AO)|]. reflexivity.
Qed.
Print Assumptions C94_names.

(** Opening: reading and updating need an existing HDF5 file and keep it; writing starts with an empty one. *)
Theorem C94_open : forall rn rs w i f m l t w' o, v_obj w i = Some o -> do_hcall rn rs w (HOpen i f m l t) = (Ok HDone, w') ->
  v_obj w' i = Some (HObj (o_kind o) (PFile f (match m with MRead => false | _ => true end))) /\
  (forall j, j <> i -> v_obj w' j = v_obj w j) /\ (forall g, g <> f -> v_fs w' g = v_fs w g) /\
  (m <> MWrite -> v_fs w' f = v_fs w f /\ exists x, v_fs w f = FHdf x) /\
  (m = MWrite -> exists x, v_fs w' f = FHdf x /\ h_sets x = [] /\ h_attrs x = [] /\ h_groups x = [] /\
     match o_kind o with KHdf => h_block x = [] | KMat => user_block t = Ok (h_block x) end).
Proof. exact open_ok. Qed.
Print Assumptions C94_open.
(** An Open that throws leaves the object as it was, so an earlier file stays open; files are
    unchanged, except that a MAT file to be created may be left empty. *)
Theorem C94_open_fails : forall rn rs w i f m l t w', do_hcall rn rs w (HOpen i f m l t) = (Throw, w') ->
  (forall j, v_obj w' j = v_obj w j) /\ (forall g, g <> f \/ m <> MWrite -> v_fs w' g = v_fs w g) /\
  (forall k p, v_obj w i = Some (HObj k p) -> k = KHdf -> v_fs w' f = v_fs w f).
Proof. exact open_throw. Qed.
Print Assumptions C94_open_fails.
Theorem C94_open_missing : forall rn rs w i o f m l t, v_obj w i = Some o -> m <> MWrite -> (forall x, v_fs w f <> FHdf x) ->
  fst (do_hcall rn rs w (HOpen i f m l t)) = Throw.
Proof. exact open_missing. Qed.
Print Assumptions C94_open_missing.

(** MAT files begin with 128 bytes: the text of C67 and the words 0, 0, 0x4D490200; in January
    creating one is undefined. *)
Theorem C94_user_block : forall t, valid_tm t ->
  (1 <= t_mon t -> exists h b, mat_header t = Ok h /\ user_block t = Ok b /\ length b = 128%nat /\ firstn 116 b = h /\
     map nat_of_ascii (skipn 116 b) = [0; 0; 0; 0; 0; 0; 0; 0; 0; 2; 73; 77]%nat) /\
  (t_mon t = 0 -> forall rn rs w i p f l, v_obj w i = Some (HObj KMat p) -> fst (do_hcall rn rs w (HOpen i f MWrite l t)) = UB).
Proof.
  intros t V. destruct (mat_header_all t V) as [A B]. split.
  - intro M. destruct (A M) as (h & H & L & _). exists h. unfold user_block. rewrite H. cbn [obind]. eexists. split; [reflexivity|].
    split; [reflexivity|]. split; [rewrite !app_length, L; reflexivity|]. rewrite <- L.
    split; [rewrite firstn_app, firstn_all, Nat.sub_diag; cbn [firstn]; apply app_nil_r|].
    rewrite skipn_app, skipn_all, Nat.sub_diag. reflexivity.
  - intros M rn rs w i p f l O. cbn [do_hcall]. rewrite O. unfold hdf_open, user_block. cbn [o_kind]. rewrite (B M). reflexivity.
Qed.
Print Assumptions C94_user_block.

(** Which calls are defined, from the history of the object alone. *)
Theorem C94_defined_calls : forall rn rs fs tr w i, run rn rs (start fs) tr w ->
  (fst (do_hcall rn rs w (HClose i)) = UB <-> is_open i false tr = false) /\
  (fst (do_hcall rn rs w (HDelete i)) = UB <-> was_opened i false tr = false) /\
  (is_open i false tr = false -> forall r, fst (do_hcall rn rs w (HRd i r)) = UB) /\
  (is_open i false tr = false -> forall a, fst (do_hcall rn rs w (HWr i a)) = UB) /\
  (exists_now i false tr = false <-> exists f m l t, m <> MWrite /\ fst (do_hcall rn rs w (HOpen i f m l t)) = UB).
Proof. exact close_defined. Qed.
Print Assumptions C94_defined_calls.
(** An object whose file could not be opened cannot be destroyed. *)
Theorem C94_failed_open_delete_refuted : ~ (forall rn rs fs i k f m l t tr w,
  run rn rs (start fs) tr w -> tr = [(HNew i k, Ok HDone); (HOpen i f m l t, Throw)] -> fst (do_hcall rn rs w (HDelete i)) <> UB).
Proof.
  intro H. eapply (H (fun _ => []) (fun _ => []) (fun _ => FNone) 0%nat KHdf [] MRead LOk (Tm 0 0 0 0 0 0 0)
    [(HNew 0 KHdf, Ok HDone); (HOpen 0 [] MRead LOk (Tm 0 0 0 0 0 0 0), Throw)]).
  - eapply run_step; [reflexivity|discriminate|]. eapply run_step; [reflexivity|discriminate|]. apply run_nil.
  - reflexivity.
  - reflexivity.
Qed.
Print Assumptions C94_failed_open_delete_refuted.

(** SFile::Create: an open object, or an exception without a new object. *)
Theorem C94_create : forall w i k f m l t r w', hdf_create_obj w i k f m l t = (r, w') ->
  (r = Ok tt -> v_obj w' i = Some (HObj k (PFile f (match m with MRead => false | _ => true end))) /\ (forall j, j <> i -> v_obj w' j = v_obj w j)) /\
  (r = Throw -> forall j, v_obj w' j = v_obj w j) /\
  (m <> MWrite -> forall g, v_fs w' g = v_fs w g).
Proof.
  intros w i k f m l t r w' H. unfold hdf_create_obj in H.
  destruct (hdf_open (v_fs w) (HObj k PUnset) f m l t) as [[ro o'] fs'] eqn:E. apply hdf_open_cases in E.
  destruct E as [(R & Eo & E1 & E2) | (R & Eo & E)].
  - subst ro o'. cbn [o_kind] in *. injection H as H1 H2. subst w' r. cbn [v_obj v_fs]. split; [|split].
    + intros _. split; [apply put_obj_same|]. intros j J. apply put_obj_other. exact J.
    + discriminate.
    + intros M g. rewrite (proj1 (E1 M)). reflexivity.
  - assert (Ef : m <> MWrite -> fs' = v_fs w) by (intro M; destruct E as [E | (M' & _)]; [exact E|contradiction]).
    destruct ro as [[]| |]; [contradiction R; reflexivity| |]; injection H as H1 H2; subst w' r; cbn [v_obj v_fs].
    + split; [discriminate|]. split; [reflexivity|]. intros M g. rewrite (Ef M). reflexivity.
    + split; [discriminate|]. split; [reflexivity|]. reflexivity.
Qed.
Print Assumptions C94_create.

(** A program with two objects: written, closed, extended by a MAT object, read. *)
Definition c94_f : str := str_of "d.h5".
Definition c94_t : tm := Tm 1 10 16 0 7 5 2026.
Definition c94_calls : list hcall :=
  [HNew 0 KHdf; HOpen 0 c94_f MWrite LOk c94_t; HWr 0 (WGroup (str_of "g")); HWr 0 (WRows HDouble (str_of "g/m") 2 [[1; 2]; [3; 1 # 2]]%Q);
   HWr 0 (WAttr (str_of "g/m") (str_of "t") (7 # 2)); HWr 0 (WNums HDouble (str_of "x/y") [1]%Q); HClose 0; HDelete 0;
   HNew 1 KMat; HOpen 1 c94_f MUpdate LOk c94_t; HWr 1 (WText (str_of "s") (str_of "abc")); HWr 1 (WText (str_of "s") (str_of "z"));
   HNew 0 KHdf; HOpen 0 c94_f MRead LOk c94_t; HRd 0 (RdDoubles (str_of "g/m")); HRd 0 (RdAttr (str_of "g/m") (str_of "t"));
   HRd 1 (RdText (str_of "s")); HRd 0 (RdAttrText (str_of "s") class_name); HWr 0 (WGroup (str_of "h"))].
Fixpoint c94_results (w : hworld) (cs : list hcall) : list (outcome hanswer) :=
  match cs with [] => [] | c :: r => let (o, w') := do_hcall (fun _ => []) (fun _ => []) w c in o :: c94_results w' r end.
Example C94_example : c94_results (start (fun _ => FNone)) c94_calls =
  [Ok HDone; Ok HDone; Ok HDone; Ok HDone; Ok HDone; Throw; Ok HDone; Ok HDone; Ok HDone; Ok HDone; Ok HDone; Throw; Ok HDone; Ok HDone;
   Ok (HGot (HMat 2 2 [[1; 2]; [3; 1 # 2]]%Q)); Ok (HGot (HNum (7 # 2))); Ok (HGot (HText (str_of "abc"))); Ok (HGot (HText (str_of "char"))); Throw].
Proof. vm_compute. reflexivity. Qed.
Lemma c94_run : forall cs w, Forall (fun o => o <> UB) (c94_results w cs) -> exists w', run (fun _ => []) (fun _ => []) w (combine cs (c94_results w cs)) w'.
Proof.
  induction cs as [|c cs IH]; intros w H; cbn [c94_results combine]; [exists w; apply run_nil|]. cbn [c94_results] in H.
  destruct (do_hcall (fun _ => []) (fun _ => []) w c) as [o w1] eqn:E. inversion H as [|x l H1 H2 Hx].
  destruct (IH w1 H2) as (w' & R). exists w'. cbn [combine]. eapply run_step; [exact E|exact H1|exact R].
Qed.
Example C94_example_run : exists tr w', run (fun _ => []) (fun _ => []) (start (fun _ => FNone)) tr w' /\ length tr = 19%nat.
Proof.
  destruct (c94_run c94_calls (start (fun _ => FNone))) as (w' & R); [rewrite C94_example; repeat constructor; discriminate|].
  eexists. exists w'. split; [exact R|]. rewrite combine_length, C94_example. reflexivity.
Qed.

(** * C95 *)
(** Attributes of HDF5 files: an attribute can be added exactly to an existing variable that has
    none of that name; nothing else changes. *)
Theorem C95_add : forall rn rs w i f x d n a v, v_obj w i = Some (HObj KHdf (PFile f true)) -> v_fs w f = FHdf x ->
  (exists q, a = WAttr d n q /\ v = ANum q) \/ (exists s, a = WAttrText d n s /\ v = AText s) ->
  ((exists e, find d (h_sets x) = Some e) /\ find_attr d n (h_attrs x) = None ->
     exists w' y, do_hcall rn rs w (HWr i a) = (Ok HDone, w') /\ v_fs w' f = FHdf y /\ same_but f w w' /\ h_sets y = h_sets x /\ h_groups y = h_groups x /\
       find_attr d n (h_attrs y) = Some v /\ (forall d' n', (d', n') <> (d, n) -> find_attr d' n' (h_attrs y) = find_attr d' n' (h_attrs x))) /\
  (find d (h_sets x) = None \/ find_attr d n (h_attrs x) <> None -> exists w', do_hcall rn rs w (HWr i a) = (Throw, w') /\ same_world w w').
Proof.
  intros rn rs w i f x d n a v O F A.
  assert (K : hdf_write x a = h_add_attr x d n v) by (destruct A as [(q & A & E) | (q & A & E)]; subst; reflexivity).
  split.
  - intros ((e & E) & N). assert (Q : exists y, h_add_attr x d n v = Ok y).
    { unfold h_add_attr, h5_has. rewrite E, N. eexists. reflexivity. }
    destruct Q as (y & Q). cbn [do_hcall]. rewrite O, F. cbn [kind_write]. rewrite K, Q. cbn [obind].
    apply h_add_attr_ok in Q. destruct Q as (_ & _ & _ & B & C & D & S & _).
    eexists. exists y. split; [reflexivity|]. cbn [v_fs v_obj]. split; [apply put_file_same|]. split; [|auto].
    split; [|reflexivity]. intros g G. apply put_file_other. exact G.
  - intro N. assert (Q : h_add_attr x d n v = Throw).
    { unfold h_add_attr, h5_has. destruct N as [N | N]; [rewrite N; reflexivity|].
      destruct (find d (h_sets x)); [|reflexivity]. destruct (find_attr d n (h_attrs x)); [reflexivity|contradiction]. }
    assert (R : exists w', do_hcall rn rs w (HWr i a) = (Throw, w')).
    { cbn [do_hcall]. rewrite O, F. cbn [kind_write]. rewrite K, Q. eexists. reflexivity. }
    destruct R as (w' & R). exists w'. split; [exact R|]. exact (write_throw_hdf _ _ _ _ _ _ _ O R).
Qed.
Print Assumptions C95_add.

(** What reading an attribute gives. *)
Theorem C95_read : forall rn rs w i f b x d n, v_obj w i = Some (HObj KHdf (PFile f b)) -> v_fs w f = FHdf x -> attrs_ok x ->
  let get r := fst (do_hcall rn rs w (HRd i r)) in
  match find_attr d n (h_attrs x) with
  | None => get (RdAttr d n) = Throw /\ get (RdAttrText d n) = Throw
  | Some (ANum q) => get (RdAttr d n) = Ok (HGot (HNum q)) /\ exists s, get (RdAttrText d n) = Ok (HGot (HText s))
  | Some (AText s) => get (RdAttr d n) = UB /\
      (~ In cNUL s -> get (RdAttrText d n) = Ok (HGot (HText s))) /\
      (forall a c, s = a ++ cNUL :: c -> ~ In cNUL a -> get (RdAttrText d n) = Ok (HGot (HText a)))
  | Some (AInt _) => get (RdAttr d n) = UB
  end.
Proof.
  intros rn rs w i f b x d n O F A get. unfold get. cbn [do_hcall]. rewrite O, F. cbn [kind_read fst].
  unfold hdf_attr, hdf_attr_text, h5_has. destruct (find_attr d n (h_attrs x)) as [a|] eqn:E.
  - destruct (A _ _ _ E) as (e & Ee). rewrite Ee. destruct a as [q|s|z]; cbn [obind fst].
    + split; [reflexivity|]. eexists. reflexivity.
    + split; [reflexivity|]. split.
      * intro N. rewrite until_nul_id by exact N. reflexivity.
      * intros a c Es N. rewrite Es, until_nul_app by exact N. reflexivity.
    + reflexivity.
  - destruct (find d (h_sets x)); split; reflexivity.
Qed.
Print Assumptions C95_read.
(** The last hypothesis holds in every program that starts with such files. *)
Theorem C95_attributes_belong : forall rn rs w tr w', run rn rs w tr w' -> files_ok w -> files_ok w'.
Proof. exact run_files_ok. Qed.
Print Assumptions C95_attributes_belong.

(** Reading a text attribute as a number is not an error, but undefined. *)
Theorem C95_text_as_number_refuted : ~ (forall rn rs fs tr w i r, run rn rs (start fs) tr w -> is_open i false tr = true ->
  fst (do_hcall rn rs w (HRd i r)) <> UB).
Proof.
  intro H.
  set (cs := [HNew 0 KHdf; HOpen 0 c94_f MWrite LOk c94_t; HWr 0 (WNums HDouble (str_of "x") [1]%Q); HWr 0 (WAttrText (str_of "x") (str_of "u") (str_of "m"))]).
  set (w0 := start (fun _ => FNone)).
  assert (R : exists w', run (fun _ => []) (fun _ => []) w0 (combine cs (c94_results w0 cs)) w' /\
     fst (do_hcall (fun _ => []) (fun _ => []) w' (HRd 0 (RdAttr (str_of "x") (str_of "u")))) = UB).
  { unfold cs, w0. eexists. split.
    - cbn [c94_results combine]. repeat (eapply run_step; [reflexivity|vm_compute; discriminate|]). apply run_nil.
    - vm_compute. reflexivity. }
  destruct R as (w' & R & U). refine (H _ _ _ _ _ 0%nat _ R _ U). vm_compute. reflexivity.
Qed.
Print Assumptions C95_text_as_number_refuted.

(** Texts end at the first NUL, in both kinds of files. *)
Theorem C95_text_cut : forall rn rs k x n a c y, kind_write k x (WText n (a ++ cNUL :: c)) = (Ok tt, y) -> ~ In cNUL a ->
  kind_read rn rs k y (RdText n) = Ok (HText a).
Proof.
  intros rn rs k x n a c y H N. pose proof (kind_write_stored _ _ _ _ H) as S. cbn [stored] in S. cbn [kind_read]. destruct k.
  - unfold hdf_text. rewrite S. cbn [d_type d_data]. rewrite char_text, until_nul_app by exact N. reflexivity.
  - unfold mat_get_string. rewrite S. cbn [d_dims d_type d_data]. rewrite map_length, Z.eqb_refl, ushort_text, until_nul_app by exact N. reflexivity.
Qed.
Print Assumptions C95_text_cut.
(** A variable of numbers is read as a text without complaint from an HDF5 file; a MAT file refuses. *)
Theorem C95_numbers_as_text : forall rn rs x n d, find n (h_sets x) = Some d -> d_type d <> HString -> d_type d <> HU16 ->
  (exists s, kind_read rn rs KHdf x (RdText n) = Ok (HText s)) /\ kind_read rn rs KMat x (RdText n) = Throw.
Proof.
  intros rn rs x n d F A B. cbn [kind_read]. unfold hdf_text, mat_get_string. rewrite F. split.
  - cbn [obind]. eexists. reflexivity.
  - destruct (d_type d); try contradiction;
      (destruct (d_dims d) as [|z1 [|[|[p|p|]|p] [|z3 l]]]; reflexivity).
Qed.
Print Assumptions C95_numbers_as_text.

(** Tables, texts and multi-dimensional tables of doubles in MAT files carry the class MATLAB needs,
    for good. *)
Theorem C95_matlab_class : forall rn rs w1 i a w2 tr w3 j f m n c,
  v_obj w1 i = Some (HObj KMat (PFile f true)) -> do_hcall rn rs w1 (HWr i a) = (Ok HDone, w2) ->
  matlab_class a = Some (n, c) -> run rn rs w2 tr w3 -> Forall (fun e => ~ rewrites f (fst e)) tr ->
  v_obj w3 j = Some (HObj KHdf (PFile f m)) ->
  do_hcall rn rs w3 (HRd j (RdAttrText n (str_of "MATLAB_class"))) = (Ok (HGot (HText c)), w3).
Proof.
  intros rn rs w1 i a w2 tr w3 j f m n c O W M R N O3.
  destruct (write_effect _ _ _ _ _ _ _ _ W O) as (x & y & Fx & K & Fy & _).
  destruct (class_stored _ _ _ _ _ K M) as [A B].
  destruct (run_kept _ _ _ _ _ _ R N y Fy) as (z & Fz & Kz). cbn [do_hcall]. rewrite O3, Fz. cbn [kind_read].
  unfold hdf_attr_text. rewrite (has_kept _ _ _ Kz B). pose proof Kz as (_ & _ & _ & K4).
  fold class_name. rewrite (K4 _ _ _ A). cbn [obind].
  assert (Q : until_nul c = c).
  { apply until_nul_id. destruct a as [t q l|t q nc rows|t q dims data|q v|q|d q v|d q v]; try discriminate;
      try (destruct t; try discriminate); injection M as _ M; subst c; vm_compute; intros I; repeat (destruct I as [I | I]; [discriminate|]); exact I. }
  rewrite Q. reflexivity.
Qed.
Print Assumptions C95_matlab_class.
(** Lists do not. *)
Theorem C95_list_class_refuted : forall rn rs x n l y, attrs_ok x -> kind_write KMat x (WNums HDouble n l) = (Ok tt, y) ->
  kind_read rn rs KHdf y (RdAttrText n (str_of "MATLAB_class")) = Throw.
Proof.
  intros rn rs x n l y A H. cbn [kind_write mat_write] in H. cbv zeta beta in H.
  destruct (hdf_write x (WNums HDouble n l)) as [z| |] eqn:E; try discriminate. injection H as H. subst z. cbn [hdf_write] in E.
  apply h_create_ok in E. destruct E as (_ & N & _ & _ & _ & Ea & _). cbn [kind_read]. unfold hdf_attr_text. rewrite Ea.
  destruct (find_attr n (str_of "MATLAB_class") (h_attrs x)) as [b|] eqn:F; [|destruct (h5_has (h_sets y) n); reflexivity].
  destruct (A _ _ _ F) as (e & C). congruence.
Qed.
Print Assumptions C95_list_class_refuted.
Example C95_example : let w := start (fun _ => FNone) in
  c94_results w [HNew 0 KMat; HOpen 0 c94_f MWrite LOk c94_t; HWr 0 (WRows HI32 (str_of "a") 1 [[4%Q]]); HWr 0 (WNums HDouble (str_of "l") [4%Q]);
    HNew 1 KHdf; HOpen 1 c94_f MRead LOk c94_t; HRd 1 (RdAttrText (str_of "a") (str_of "MATLAB_class")); HRd 1 (RdAttrText (str_of "l") (str_of "MATLAB_class"))] =
  [Ok HDone; Ok HDone; Ok HDone; Ok HDone; Ok HDone; Ok HDone; Ok (HGot (HText (str_of "int32"))); Throw].
Proof. vm_compute. reflexivity. Qed.
