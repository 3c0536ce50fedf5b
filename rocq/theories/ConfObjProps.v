(** C98: configuration objects over their lifetime.  C99: queries of configuration blocks. *)
From Verif Require Import Base ConfigModel LexSpec LexProofs InterpSpec InterpProofs ConfigProofs PosModel PosSpec PosProofs PosProofs3
  ConfObjModel ConfObjSpec ConfObjProofs ConfigProps.

(** An object opens at most one configuration file in its life, whether or not the script in
    it could be read. *)
Theorem C98_open_once : forall d pre i n1 mid n2 post w w' bs,
  c_run d w (pre ++ CFromFile i n1 :: mid ++ CFromFile i n2 :: post) = Ok (Some (w', bs)) ->
  no_nameless (w_fs w) (pre ++ CFromFile i n1 :: mid ++ CFromFile i n2 :: post) ->
  n1 <> [] ->
  (exists b, nth_error bs (length pre) = Some b /\ got_open b = true) ->
  nth_error bs (length pre + S (length mid)) = Some BOpened.
Proof. exact open_once. Qed.
Print Assumptions C98_open_once.

(** FromFile refuses exactly if the object has a file name or the file cannot be opened; a
    refused call (and a refused registration) changes nothing. *)
Theorem C98_refused : forall d w o w' b, c_step d w o = Ok (Some (w', b)) ->
  (b = BOpened \/ b = BNoFile \/ b = BDuplicate -> w' = w) /\
  (forall i name, o = CFromFile i name -> exists c, nth_error (w_objs w) i = Some c /\
     (b = BOpened <-> cfile c <> []) /\ (b = BNoFile <-> cfile c = [] /\ w_fs w name = None)).
Proof.
  intros d w o w' b H. split; [exact (refused_same _ _ _ _ _ H)|].
  intros i name ->. destruct (file_step _ _ _ _ _ _ H) as (c & A & B & C & _). exists c. auto.
Qed.
Print Assumptions C98_refused.

(** The tree of an object is that of the last read on it that returned: what the script reads
    as with the block types the object had then. *)
Theorem C98_root : forall d pre o post w w' bs i c,
  c_run d w (pre ++ o :: post) = Ok (Some (w', bs)) -> nth_error (w_objs w) i = Some c ->
  acts_on o = Some i ->
  (exists b, nth_error bs (length pre) = Some b /\ returned b = true) ->
  (forall o' b', In (o', b') (combine post (skipn (S (length pre)) bs)) -> acts_on o' = Some i -> returned b' = false) ->
  exists w1 bs1 c1 c' text log, c_run d w pre = Ok (Some (w1, bs1)) /\ nth_error (w_objs w1) i = Some c1 /\
    nth_error (w_objs w') i = Some c' /\ reads_text w1 o text /\ nth_error bs (length pre) = Some (BRead log) /\
    from_string (ctypes c1) (w_fs w1) d text = FOk (croot c') (match log with [] => false | _ => true end).
Proof. exact run_root. Qed.
Print Assumptions C98_root.

(** The error flag is set once a read on the object has printed a message (or it was set by
    hand) and stays set; the types are those registered; without a read that returns the tree
    stays; calls on other objects do nothing to this one. *)
Theorem C98_history : forall d ops w w' bs i c, c_run d w ops = Ok (Some (w', bs)) -> nth_error (w_objs w) i = Some c ->
  exists c', nth_error (w_objs w') i = Some c' /\
    (cerr c' = true <-> cerr c = true \/
       exists o b, In (o, b) (combine ops bs) /\ acts_on o = Some i /\ (o = CSetError i \/ printed b <> [])) /\
    ctypes c' = ctypes c ++ registered i (combine ops bs) /\
    ((forall o b, In (o, b) (combine ops bs) -> acts_on o = Some i -> returned b = false) -> croot c' = croot c) /\
    ((forall o, In o ops -> acts_on o <> Some i) -> c' = c).
Proof. exact run_on. Qed.
Print Assumptions C98_history.

(** The name of an object's file: set by FromFile, otherwise left alone, unless an included
    file is missing; then it names the file that includes it. *)
Theorem C98_filename : forall d w o w' b i c, c_step d w o = Ok (Some (w', b)) -> nth_error (w_objs w) i = Some c ->
  acts_on o = Some i ->
  exists c', nth_error (w_objs w') i = Some c' /\
    cfile c' = match b with
               | BMissing _ _ f _ => f
               | BRead _ | BNotClosed _ _ _ _ => match o with CFromFile _ n => n | _ => cfile c end
               | _ => cfile c
               end.
Proof.
  intros d w o w' b i c H Hi On. destruct (c_step_inv _ _ _ _ _ _ _ H Hi) as (c' & A & _ & C).
  exists c'. split; [exact A|]. specialize (C On).
  destruct o as [|j|j name|j name|j text src|j|j|name text|text]; try discriminate.
  - destruct C as [(-> & -> & _)|(_ & -> & ->)]; reflexivity.
  - destruct (conf_file_after _ _ _ _ _ _ C) as [(_ & -> & ->)|[(_ & _ & -> & ->)|(_ & text & _ & E)]]; try reflexivity.
    destruct (conf_string_after _ _ _ _ _ _ _ E) as (_ & -> & K). destruct b; try destruct K; reflexivity.
  - destruct (conf_string_after _ _ _ _ _ _ _ C) as (_ & -> & K). destruct b; try destruct K; reflexivity.
  - destruct C as (_ & _ & E). destruct (conf_string_after _ _ _ _ _ _ _ E) as (_ & -> & K). destruct b; try destruct K; reflexivity.
  - destruct C as [-> ->]. reflexivity.
Qed.
Print Assumptions C98_filename.

(** Reading the standard input is reading, from "stdin", the text in front of its first NUL,
    whatever its length.  It can be done once: a second time, or at the end of the input, it is
    undefined. *)
Theorem C98_stdin :
  (forall d w i text, cin_eof (w_cin w) = false -> cut_at_nul (cin_rest (w_cin w)) text ->
     c_step d w (CFromStdin i) =
     obind (c_step d w (CFromString i text (str_of "stdin"))) (fun r =>
       Ok (match r with None => None | Some (w', b) => Some (mkCW (w_objs w') (w_fs w') (mkCin [] true), b) end))) /\
  (forall d w i, i < length (w_objs w) -> cin_eof (w_cin w) = true -> c_step d w (CFromStdin i) = UB) /\
  (forall d pre i mid j post w r, c_run d w (pre ++ CFromStdin i :: mid ++ CFromStdin j :: post) <> Ok (Some r)).
Proof. split; [exact stdin_step|]. split; [exact stdin_eof_UB|exact stdin_once]. Qed.
Print Assumptions C98_stdin.

(** A copy has the same file name, types, error flag and tree, all settings untouched. *)
Theorem C98_copy : forall d w i c, nth_error (w_objs w) i = Some c ->
  exists w' c', c_step d w (CCopy i) = Ok (Some (w', BMade (length (w_objs w)))) /\
    nth_error (w_objs w') (length (w_objs w)) = Some c' /\
    (forall j x, nth_error (w_objs w) j = Some x -> nth_error (w_objs w') j = Some x) /\
    cfile c' = cfile c /\ ctypes c' = ctypes c /\ cerr c' = cerr c /\ same_untouched (croot c) (croot c').
Proof. exact copy_step. Qed.
Print Assumptions C98_copy.

(** A script given as a string can make the object refuse to open its first file. *)
Definition nested_files : filesys := fun n =>
  if str_eqb n (str_of "inc") then Some (ex_text "<gone>")
  else if str_eqb n (str_of "main") then Some (ex_text "a = 1;") else None.
Theorem C98_string_blocks_file_refuted : exists w l k,
  c_run 5 (c_start nested_files [])
    [CNew; CFromString 0 (ex_text "b = 2; <inc>") (str_of "text"); CFromFile 0 (str_of "main")] =
  Ok (Some (w, [BMade 0; BMissing l k (str_of "inc") (str_of "gone"); BOpened])).
Proof. eexists _, _, _. vm_compute. reflexivity. Qed.
Print Assumptions C98_string_blocks_file_refuted.

(** The error flag does not tell about the script read last. *)
Theorem C98_error_flag_refuted : exists w log c,
  c_run 5 (c_start nested_files []) [CNew; CFromString 0 (ex_text "b 2;") []; CFromString 0 (ex_text "b = 2;") []] =
  Ok (Some (w, [BMade 0; BRead log; BRead []])) /\ nth_error (w_objs w) 0 = Some c /\ cerr c = true.
Proof. eexists _, _, _. split; [vm_compute; reflexivity|]. split; reflexivity. Qed.
Print Assumptions C98_error_flag_refuted.

(** A program to which the theorems apply. *)
Example C98_example : exists w c,
  c_run 5 (c_start nested_files (ex_text "q = 3;"))
    [CNew; CRegister 0 (str_of "@Blk"); CFromFile 0 (str_of "main"); CCopy 0; CFromStdin 1; CFromFile 1 (str_of "main")] =
  Ok (Some (w, [BMade 0; BType 1; BRead []; BMade 1; BRead []; BOpened])) /\
  no_nameless nested_files [] /\
  nth_error (w_objs w) 1 = Some c /\ cb_sets (croot c) = [mkSet (str_of "q") [str_of "3"] false] /\
  ctypes c = [str_of "/root"; str_of "@Blk"].
Proof.
  eexists _, _. split; [vm_compute; reflexivity|]. split; [split; [reflexivity|intros t []]|].
  split; [reflexivity|]. split; reflexivity.
Qed.

(** The sub-blocks of a type are listed in order, each of them and no others. *)
Theorem C99_sub_blocks : forall b ty,
  subs_of_type (cb_subs b) ty = filter (fun x => Nat.eqb (cb_type x) ty) (cb_subs b) /\
  (has_subs_of_type (cb_subs b) ty = true <-> exists x, In x (cb_subs b) /\ cb_type x = ty) /\
  (has_subs_of_type (cb_subs b) ty = true <-> subs_of_type (cb_subs b) ty <> []) /\
  (has_sub_blocks b = true <-> cb_subs b <> []).
Proof.
  intros b ty. split; [apply subs_of_type_filter|]. split; [apply has_subs_of_type_spec|]. split.
  - rewrite has_subs_of_type_spec, subs_of_type_filter. split.
    + intros (x & A & B) E. assert (Q : In x (filter (fun x => Nat.eqb (cb_type x) ty) (cb_subs b))).
      { apply filter_In. split; [exact A|apply Nat.eqb_eq; exact B]. } rewrite E in Q. destruct Q.
    + intro N. destruct (filter (fun x => Nat.eqb (cb_type x) ty) (cb_subs b)) as [|x r] eqn:E; [destruct (N eq_refl)|].
      exists x. assert (Q : In x (filter (fun x => Nat.eqb (cb_type x) ty) (cb_subs b))) by (rewrite E; left; reflexivity).
      apply filter_In in Q. destruct Q as [Q1 Q2]. split; [exact Q1|apply Nat.eqb_eq; exact Q2].
  - unfold has_sub_blocks. destruct (cb_subs b) as [|x r]; cbn; split; try discriminate; try reflexivity.
    intro Q. destruct (Q eq_refl).
Qed.
Print Assumptions C99_sub_blocks.

(** Reading a setting by [] gives its first value and touches it, and it alone; without such
    a setting it throws and changes nothing. *)
Theorem C99_index :
  (forall t n sec pre s post subs v vs,
     (forall x, In x pre -> sname x <> sname s) -> svals s = v :: vs ->
     block_index (CB t n sec (pre ++ s :: post) subs) (sname s) =
     (CB t n sec (pre ++ mkSet (sname s) (svals s) true :: post) subs, Ok v)) /\
  (forall b name, (forall x, In x (cb_sets b) -> sname x <> name) -> block_index b name = (b, Throw)) /\
  (forall b name b' v, block_index b name = (b', Ok v) -> exists s vs, In s (cb_sets b) /\ sname s = name /\ svals s = v :: vs).
Proof.
  assert (NB : forall x name, sname x <> name -> str_eqb (sname x) name = false).
  { intros x name N. destruct (str_eqb (sname x) name) eqn:E; [|reflexivity]. apply str_eqb_eq in E. destruct (N E). }
  split; [|split].
  - intros t n sec pre s post subs v vs HP HV. unfold block_index.
    assert (G : get_setting (pre ++ s :: post) (sname s) =
                (pre ++ mkSet (sname s) (svals s) true :: post, Some (mkSet (sname s) (svals s) true))).
    { induction pre as [|x pre IH]; cbn [app get_setting].
      - rewrite str_eqb_refl. reflexivity.
      - rewrite NB by (apply HP; left; reflexivity). rewrite IH by (intros y Hy; apply HP; right; exact Hy). reflexivity. }
    rewrite G. cbn [svals]. rewrite HV. reflexivity.
  - intros [t n sec sets subs] name H. unfold block_index. cbn [cb_sets] in H.
    assert (G : get_setting sets name = (sets, None)).
    { induction sets as [|x sets IH]; [reflexivity|]. cbn [get_setting].
      rewrite NB by (apply H; left; reflexivity). rewrite IH by (intros y Hy; apply H; right; exact Hy). reflexivity. }
    rewrite G. reflexivity.
  - intros [t n sec sets subs] name b' v H. unfold block_index in H. cbn [cb_sets].
    assert (G : forall sets' s', get_setting sets name = (sets', Some s') ->
              exists s, In s sets /\ sname s = name /\ svals s = svals s').
    { clear H. induction sets as [|x sets IH]; intros sets' s' E; [discriminate|]. cbn [get_setting] in E.
      destruct (str_eqb (sname x) name) eqn:Ex.
      - injection E as <- <-. exists x. apply str_eqb_eq in Ex. split; [left; reflexivity|auto].
      - destruct (get_setting sets name) as [r o]. injection E as <- ->.
        destruct (IH _ _ eq_refl) as (s & A & B). exists s. split; [right; exact A|exact B]. }
    destruct (get_setting sets name) as [sets' [s'|]] eqn:E; [|discriminate].
    destruct (G _ _ eq_refl) as (s & A & B & C). exists s. destruct (svals s') as [|y ys] eqn:V; [discriminate|].
    injection H as _ ->. exists ys. auto.
Qed.
Print Assumptions C99_index.

(** Two blocks compare as equal exactly if they have the same type and name. *)
Theorem C99_equal : forall a b, block_equal a b = true <-> cb_type a = cb_type b /\ cb_name a = cb_name b.
Proof.
  intros a b. unfold block_equal, has_type_and_name. rewrite Bool.andb_true_iff, Nat.eqb_eq.
  split; intros [H1 H2]; (split; [exact H1|]); [apply str_eqb_eq; exact H2|rewrite H2; apply str_eqb_refl].
Qed.
Print Assumptions C99_equal.

(** So blocks with different settings compare as equal. *)
Theorem C99_equal_contents_refuted : exists a b, block_equal a b = true /\ cb_sets a <> cb_sets b /\ cb_subs a <> cb_subs b.
Proof.
  exists (CB 1 (str_of "x") [] [] []), (CB 1 (str_of "x") [] [mkSet (str_of "q") [str_of "3"] false] [root_block]).
  split; [reflexivity|]. split; discriminate.
Qed.
Print Assumptions C99_equal_contents_refuted.

(** A block to which the theorems apply. *)
Example C99_example :
  let b := CB 0 (str_of "<root>") [] [mkSet (str_of "p") [] false; mkSet (str_of "q") [str_of "3"; str_of "4"] false]
             [CB 1 (str_of "x") [] [] []; CB 2 (str_of "y") [] [] []; CB 1 (str_of "z") [] [] []] in
  map cb_name (subs_of_type (cb_subs b) 1) = [str_of "x"; str_of "z"] /\
  snd (block_index b (str_of "q")) = Ok (str_of "3") /\ snd (block_index b (str_of "r")) = Throw.
Proof. repeat split. Qed.
