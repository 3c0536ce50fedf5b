(** SDT files on disk (C92).
    [rnd]: rounding of decimal texts; [mem]: largest allocation; [perm f a]: the operating
    system lets the program open the file [f] with access [a]. *)
From Verif Require Import Base SettingsModel SettingsProofs SdtModel DoubleText SdtSpec SdtProofs SdtReadProofs SdtUseProofs
  SessionModel SessionSpec SessionProofs.
From Coq Require Import ZArith QArith.
Local Open Scope Z_scope.

(** What a read call on object [i] returns. *)
Definition reads (rnd : Q -> option Q) (mem : Z) (perm : str -> faccess -> bool) (w : world) (i : nat) (c : rcall) : outcome answer :=
  fst (do_call rnd mem perm w (CRead i c)).
Lemma reads_result : forall rnd mem perm w i c,
  reads rnd mem perm w i c = obind (result (o_vars (w_obj w i)) c) (fun v => Ok (Got v)).
Proof. intros. unfold reads, result. cbn [do_call]. destruct (do_read _ _). reflexivity. Qed.

(** * C92: files and objects *)

(** A file opened for writing contains the text of the write calls made since, and nothing
    else, whatever other objects and files are used in between. *)
Theorem C92_file_text : forall rnd mem perm w i f cs w',
  closed (w_obj w i) -> perm f AOut = true -> (forall j, j <> i -> ~ writes_to (w_obj w j) f) ->
  (forall c, In c cs -> leaves i f c) ->
  do_calls rnd mem perm w (COpen i f MWrite :: cs) = Some w' ->
  w_fs w' f = Some (write_file (written i cs)).
Proof.
  intros rnd mem perm w i f cs w' C P O L R. apply do_calls_cons in R. destruct R as [_ R].
  pose proof (holding_steps rnd mem perm cs _ i f [] [] w' (open_write_holding rnd mem perm w i f C P O) L R) as [_ [_ [F _]]].
  rewrite skipn_nil, app_nil_r in F. exact F.
Qed.
Print Assumptions C92_file_text.

(** What was written is found by an object that opens the file afterwards. *)
Theorem C92_round_trip : forall rnd mem perm w i f cs w' k,
  mem < 2 ^ 64 -> closed (w_obj w i) -> perm f AOut = true -> (forall j, j <> i -> ~ writes_to (w_obj w j) f) ->
  (forall c, In c cs -> leaves i f c) -> (forall c, In c (written i cs) -> ok_call rnd mem c) ->
  do_calls rnd mem perm w (COpen i f MWrite :: cs) = Some w' ->
  closed (w_obj w' k) -> no_vars (w_obj w' k) -> perm f AIn = true ->
  exists w'', do_call rnd mem perm w' (COpen k f MRead) = (Ok Done, w'') /\
    (forall g, w_fs w'' g = w_fs w' g) /\ closed (w_obj w'' k) /\
    forall n,
      (exists b, reads rnd mem perm w'' k (RHas n) = Ok (Got (VBool b)) /\ (b = true <-> exists c d, In c (written i cs) /\ defines c = Some (n, d))) /\
      (forall x, first_string n (written i cs) = Some x -> reads rnd mem perm w'' k (RString n) = Ok (Got (VStr x))) /\
      (first_string n (written i cs) = None -> reads rnd mem perm w'' k (RString n) = Throw) /\
      (forall nc rows, first_matrix n (written i cs) = Some (nc, rows) -> exists vals,
          reads rnd mem perm w'' k (RDoubles n) = Ok (Got (VMat (Z.of_nat (length rows)) (Z.of_nat nc) vals)) /\ read_matrix rnd rows vals) /\
      (first_matrix n (written i cs) = None -> reads rnd mem perm w'' k (RDoubles n) = Throw).
Proof.
  intros rnd mem perm w i f cs w' k Hm C P O L OK R Ck [N1 N2] Pk.
  pose proof (C92_file_text rnd mem perm w i f cs w' C P O L R) as F.
  destruct (written_file rnd mem (written i cs) Hm OK) as [r [[st [Hst Er]] K]].
  destruct (open_read_ok rnd mem perm w' k f _ st Ck Pk F Hst) as [A1 [A2 A3]].
  exists (snd (do_call rnd mem perm w' (COpen k f MRead))).
  split; [rewrite <- A1; apply surjective_pairing|].
  split; [intro g; apply other_file; discriminate|]. split; [exact A2|].
  assert (B : behind (o_vars (w_obj w' k)) st = r).
  { unfold behind. rewrite N1, N2, Er. unfold open_store. reflexivity. }
  rewrite B in A3. intro n. destruct (K n) as [K1 [K2 [K3 [K4 K5]]]].
  rewrite !reads_result, !(same_result _ _ _ A3).
  split; [destruct K1 as [b [E1 E2]]; exists b; rewrite E1; split; [reflexivity|exact E2]|].
  split; [intros x Hx; rewrite (K2 x Hx); reflexivity|]. split; [intro H; rewrite (K3 H); reflexivity|].
  split; [intros nc rows H; destruct (K4 nc rows H) as [vals [E1 E2]]; exists vals; rewrite E1; split; [reflexivity|exact E2]|].
  intro H; rewrite (K5 H); reflexivity.
Qed.
Print Assumptions C92_round_trip.

(** A file opened for update is written from its beginning: the new text replaces as many
    bytes as it has, the rest of the old text stays behind it. *)
Theorem C92_update_text : forall rnd mem perm w i f old cs w',
  closed (w_obj w i) -> perm f AInOut = true -> w_fs w f = Some old -> (forall j, j <> i -> ~ writes_to (w_obj w j) f) ->
  (forall c, In c cs -> leaves i f c) ->
  do_calls rnd mem perm w (COpen i f MUpdate :: cs) = Some w' ->
  w_fs w' f = Some (write_file (written i cs) ++ skipn (length (write_file (written i cs))) old).
Proof.
  intros rnd mem perm w i f old cs w' C P F O L R. apply do_calls_cons in R. destruct R as [_ R].
  pose proof (holding_steps rnd mem perm cs _ i f [] old w' (open_update_holding rnd mem perm w i f old C P F O) L R) as [_ [_ [E _]]].
  exact E.
Qed.
Print Assumptions C92_update_text.

(** A call affects its own object only, and a file only if it opens that file for writing
    or writes through an object that has it open. *)
Theorem C92_frame : forall rnd mem perm w c,
  (forall j, j <> on c -> w_obj (snd (do_call rnd mem perm w c)) j = w_obj w j) /\
  (forall f, (forall i, c = COpen i f MWrite -> ~ (closed (w_obj w i) /\ perm f AOut = true)) ->
     (forall i x, c = CWrite i x -> ~ writes_to (w_obj w i) f) ->
     w_fs (snd (do_call rnd mem perm w c)) f = w_fs w f).
Proof.
  intros rnd mem perm w c. split; [intros j Hj; apply other_object; exact Hj|].
  intros f H1 H2. apply other_file; [|exact H2]. intros i E C. destruct (perm f AOut) eqn:P; [|reflexivity].
  exfalso. exact (H1 i E (conj C eq_refl)).
Qed.
Print Assumptions C92_frame.

(** A program that opens files for reading only changes no file, even if it calls the
    write functions. *)
Theorem C92_readers_change_nothing : forall rnd mem perm cs w w',
  (forall i f, ~ writes_to (w_obj w i) f) -> (forall i f m, In (COpen i f m) cs -> m = MRead) ->
  do_calls rnd mem perm w cs = Some w' -> forall f, w_fs w' f = w_fs w f.
Proof.
  induction cs as [|c cs IH]; intros w w' N L R f; [injection R as <-; reflexivity|].
  apply do_calls_cons in R. destruct R as [_ R].
  assert (N' : forall i g, ~ writes_to (w_obj (snd (do_call rnd mem perm w c)) i) g).
  { intros i g H. apply becomes_writer in H. destruct H as [H|[m [E H]]]; [exact (N i g H)|].
    apply H. apply (L i g). left. exact E. }
  rewrite (IH _ _ N' (fun i g m H => L i g m (or_intror H)) R f).
  apply other_file.
  - intros i -> _. specialize (L i f MWrite (or_introl eq_refl)). discriminate.
  - intros i x _. apply N.
Qed.
Print Assumptions C92_readers_change_nothing.

(** Opening for reading: the variables of the file are found behind those the object
    already has; a text that cannot be loaded gives an exception; a file that cannot be
    opened, and an object that is still open, give no error and no new variable. *)
Theorem C92_open_read : forall rnd mem perm w i f,
  (forall text st, closed (w_obj w i) -> perm f AIn = true -> w_fs w f = Some text -> load rnd mem text = Some (Ok st) ->
     fst (do_call rnd mem perm w (COpen i f MRead)) = Ok Done /\
     forall c, reads rnd mem perm (snd (do_call rnd mem perm w (COpen i f MRead))) i c =
       obind (result (behind (o_vars (w_obj w i)) st) c) (fun v => Ok (Got v))) /\
  (forall text, closed (w_obj w i) -> perm f AIn = true -> w_fs w f = Some text -> load rnd mem text = Some Throw ->
     fst (do_call rnd mem perm w (COpen i f MRead)) = Throw) /\
  (forall text, closed (w_obj w i) -> perm f AIn = true -> w_fs w f = Some text -> load rnd mem text = Some UB ->
     fst (do_call rnd mem perm w (COpen i f MRead)) = UB) /\
  (~ closed (w_obj w i) \/ w_fs w f = None \/ perm f AIn = false ->
     fst (do_call rnd mem perm w (COpen i f MRead)) = Ok Done /\
     forall c, reads rnd mem perm (snd (do_call rnd mem perm w (COpen i f MRead))) i c = reads rnd mem perm w i c).
Proof.
  intros rnd mem perm w i f. split; [|split; [|split]].
  - intros text st C P F L. destruct (open_read_ok rnd mem perm w i f text st C P F L) as [A [_ B]].
    split; [exact A|]. intro c. rewrite reads_result, (same_result _ _ c B). reflexivity.
  - intros text C P F L. exact (proj1 (open_read_throw rnd mem perm w i f text C P F L)).
  - intros text C P F L. exact (open_read_ub rnd mem perm w i f text C P F L).
  - intro H. destruct (open_read_nothing rnd mem perm w i f H) as [A [_ B]]. split; [exact A|].
    intro c. rewrite !reads_result, B. reflexivity.
Qed.
Print Assumptions C92_open_read.

(** A missing file is not reported: the object simply has no variables. *)
Theorem C92_missing_file_refuted : forall rnd mem perm w i f, w_fs w f = None -> no_vars (w_obj w i) ->
  fst (do_call rnd mem perm w (COpen i f MRead)) = Ok Done /\
  forall n, reads rnd mem perm (snd (do_call rnd mem perm w (COpen i f MRead))) i (RHas n) = Ok (Got (VBool false)).
Proof.
  intros rnd mem perm w i f F [N1 N2]. destruct (C92_open_read rnd mem perm w i f) as [_ [_ [_ K]]].
  destruct (K (or_intror (or_introl F))) as [A B]. split; [exact A|]. intro n. rewrite B, reads_result.
  unfold result. cbn [do_read]. rewrite N1, N2. reflexivity.
Qed.
Print Assumptions C92_missing_file_refuted.

(** Nor is a file that cannot be opened for writing: every write call succeeds and changes
    no file. *)
Theorem C92_lost_writes_refuted : forall rnd mem perm w i f m cs w', m <> MRead ->
  (~ closed (w_obj w i) \/ perm f (match m with MUpdate => AInOut | _ => AOut end) = false \/ (m = MUpdate /\ w_fs w f = None)) ->
  (forall c, In c cs -> exists x, c = CWrite i x) ->
  fst (do_call rnd mem perm w (COpen i f m)) = Ok Done /\
  (do_calls rnd mem perm w (COpen i f m :: cs) = Some w' -> forall g, w_fs w' g = w_fs w g) /\
  do_calls rnd mem perm w (COpen i f m :: cs) <> None.
Proof.
  intros rnd mem perm w i f m cs w' Hm H L.
  assert (A : fst (do_call rnd mem perm w (COpen i f m)) = Ok Done /\
              (forall g, w_fs (snd (do_call rnd mem perm w (COpen i f m))) g = w_fs w g) /\
              s_good (o_stream (w_obj (snd (do_call rnd mem perm w (COpen i f m))) i)) = false).
  { unfold closed in H. destruct m; [contradiction| |]; cbn [do_call sdt_open]; unfold stream_open;
      destruct (s_file (o_stream (w_obj w i))) eqn:E; cbn [fst snd w_fs w_obj obind o_stream s_good];
      try (rewrite set_obj_same; repeat split; reflexivity).
    - destruct (w_fs w f) eqn:F; cbn [fst snd w_fs w_obj obind o_stream s_good]; [|rewrite set_obj_same; repeat split; reflexivity].
      destruct H as [H|[H|[_ H]]]; [contradiction| |discriminate]. rewrite H. cbn [fst snd w_fs w_obj obind o_stream s_good]. rewrite set_obj_same. repeat split; reflexivity.
    - destruct H as [H|[H|[H _]]]; [contradiction| |discriminate]. rewrite H. cbn [fst snd w_fs w_obj obind o_stream s_good]. rewrite set_obj_same. repeat split; reflexivity. }
  destruct A as [A1 [A2 A3]]. split; [exact A1|].
  set (w1 := snd (do_call rnd mem perm w (COpen i f m))) in *.
  assert (B : exists w2, do_calls rnd mem perm w1 cs = Some w2 /\ forall g, w_fs w2 g = w_fs w1 g).
  { clear - L A3. clearbody w1. revert w1 A3. induction cs as [|c cs IH]; intros w1 A3; [exists w1; split; reflexivity|].
    destruct (L c (or_introl eq_refl)) as [x ->].
    assert (E : stream_write (w_fs w1) (o_stream (w_obj w1 i)) (write_call x) = (o_stream (w_obj w1 i), w_fs w1)).
    { unfold stream_write. rewrite A3. destruct (write_call x); reflexivity. }
    cbn [do_calls do_call]. rewrite E.
    destruct (IH (fun d Hd => L d (or_intror Hd)) (World (w_fs w1) (set_obj (w_obj w1) i (Sdt (o_stream (w_obj w1 i)) (o_vars (w_obj w1 i)))))) as [w2 [R2 F2]].
    { cbn [w_obj]. rewrite set_obj_same. exact A3. }
    exists w2. split; [exact R2|exact F2]. }
  destruct B as [w2 [R2 F2]].
  assert (R : do_calls rnd mem perm w (COpen i f m :: cs) = Some w2).
  { cbn [do_calls]. unfold w1 in R2. destruct (do_call rnd mem perm w (COpen i f m)) as [o x]. cbn [fst snd] in *. rewrite A1. exact R2. }
  rewrite R. split; [|discriminate]. intro E. injection E as <-. intro g. rewrite F2. apply A2.
Qed.
Print Assumptions C92_lost_writes_refuted.

(** Files for the examples: a program that may open everything, and a file system. *)
Definition ex_rnd : Q -> option Q := fun q => Some q.
Definition ex_perm : str -> faccess -> bool := fun _ _ => true.
Definition ex_world : world := World (fun _ => None) (fun _ => new_sdt).
Definition ex_name : str := str_of "f.sdt".
Definition ex_run (cs : list call) : world := match do_calls ex_rnd 1000 ex_perm ex_world cs with Some w => w | None => ex_world end.
Definition ex_reads (cs : list call) (i : nat) (c : rcall) : outcome answer := reads ex_rnd 1000 ex_perm (ex_run cs) i c.

(** Updating a file does not add a variable to it: here the old variable cannot be read
    any more, and neither can the file be opened. *)
Theorem C92_update_refuted : exists cs f a b,
  ex_reads cs 1 (RHas a) = Ok (Got (VBool true)) /\
  (let cs' := cs ++ [COpen 2 f MUpdate; CWrite 2 (WString b (str_of "x")); CClose 2] in
   do_calls ex_rnd 1000 ex_perm ex_world cs' <> None /\
   fst (do_call ex_rnd 1000 ex_perm (ex_run cs') (COpen 3 f MRead)) = Throw).
Proof.
  exists [COpen 0 ex_name MWrite; CWrite 0 (WArray (str_of "a") 2 (map (map NInt) [[1; 2]; [3; 4]; [5; 6]])); CClose 0; COpen 1 ex_name MRead],
    ex_name, (str_of "a"), (str_of "b").
  vm_compute. repeat split; discriminate.
Qed.
Print Assumptions C92_update_refuted.

(** An object that is used for a second file still gives the values of the first one, and
    after an exception the next file is not read at all. *)
Theorem C92_reuse_refuted : exists cs f g n,
  ex_reads (cs ++ [COpen 1 g MRead]) 1 (RDoubles n) = Ok (Got (VMat 1 1 [[2%Q]])) /\
  ex_reads (cs ++ [COpen 1 f MRead; COpen 1 g MRead]) 1 (RDoubles n) = Ok (Got (VMat 1 1 [[1%Q]])).
Proof.
  exists [COpen 0 ex_name MWrite; CWrite 0 (WScalar (str_of "a") (NInt 1)); CClose 0;
          COpen 0 (str_of "g") MWrite; CWrite 0 (WScalar (str_of "a") (NInt 2)); CClose 0], ex_name, (str_of "g"), (str_of "a").
  vm_compute. split; reflexivity.
Qed.
Print Assumptions C92_reuse_refuted.
Theorem C92_after_exception_refuted : forall rnd mem perm w i f g text, closed (w_obj w i) -> perm f AIn = true ->
  w_fs w f = Some text -> load rnd mem text = Some Throw ->
  let w1 := snd (do_call rnd mem perm w (COpen i f MRead)) in
  fst (do_call rnd mem perm w (COpen i f MRead)) = Throw /\
  fst (do_call rnd mem perm w1 (COpen i g MRead)) = Ok Done /\
  forall c, reads rnd mem perm (snd (do_call rnd mem perm w1 (COpen i g MRead))) i c = reads rnd mem perm w1 i c.
Proof.
  intros rnd mem perm w i f g text C P F L. destruct (open_read_throw rnd mem perm w i f text C P F L) as [A [B _]].
  intro w1. split; [exact A|]. destruct (C92_open_read rnd mem perm w1 i g) as [_ [_ [_ K]]]. apply K. left. exact B.
Qed.
Print Assumptions C92_after_exception_refuted.

(** Closing never fails and loses neither files nor variables, also a second time; it
    frees the object for the next file.  Multi-dimensional arrays are refused without
    any effect. *)
Theorem C92_close : forall rnd mem perm w i,
  (let (r, w') := do_call rnd mem perm w (CClose i) in
   r = Ok Done /\ closed (w_obj w' i) /\ (forall f, w_fs w' f = w_fs w f) /\
   forall c, reads rnd mem perm w' i c = reads rnd mem perm w i c) /\
  (forall name, do_call rnd mem perm w (CWriteMulti i name) = (Throw, w) /\ do_call rnd mem perm w (CReadMulti i name) = (Throw, w)).
Proof.
  intros rnd mem perm w i. split; [|intro name; split; reflexivity].
  cbn [do_call]. split; [reflexivity|]. split; [|split; [reflexivity|]].
  - unfold closed, set_obj; cbn [w_obj]. rewrite Nat.eqb_refl. unfold stream_close; cbn [o_stream].
    destruct (s_file (o_stream (w_obj w i))); reflexivity.
  - intro c. rewrite !reads_result. unfold set_obj; cbn [w_obj]. rewrite Nat.eqb_refl. reflexivity.
Qed.
Print Assumptions C92_close.

(** Two objects write two files alternately, a third reads one of them back. *)
Definition ex_calls : list call :=
  [CWrite 0 (WScalar (str_of "a") (NInt 1)); COpen 1 (str_of "g") MWrite; CWrite 1 (WScalar (str_of "a") (NInt 7));
   CWrite 0 (WString (str_of "b") (str_of "text")); CWriteMulti 0 (str_of "m"); CRead 0 (RHas (str_of "a"))].
Example C92_example : (forall c, In c ex_calls -> leaves 0 ex_name c) /\
  do_calls ex_rnd 1000 ex_perm ex_world (COpen 0 ex_name MWrite :: ex_calls) <> None /\
  written 0 ex_calls = [WScalar (str_of "a") (NInt 1); WString (str_of "b") (str_of "text")] /\
  ex_reads (COpen 0 ex_name MWrite :: ex_calls ++ [COpen 2 ex_name MRead]) 2 (RDoubles (str_of "a")) = Ok (Got (VMat 1 1 [[1%Q]])) /\
  ex_reads (COpen 0 ex_name MWrite :: ex_calls ++ [COpen 2 ex_name MRead]) 2 (RString (str_of "b")) = Ok (Got (VStr (str_of "text"))) /\
  (closed (w_obj ex_world 0) /\ no_vars (w_obj ex_world 0) /\ forall j f, ~ writes_to (w_obj ex_world j) f).
Proof.
  split.
  - intros c H. unfold ex_calls in H. cbn [In] in H.
    destruct H as [<-|[<-|[<-|[<-|[<-|[<-|[]]]]]]]; cbn [leaves]; try exact I.
    split; [discriminate|]. intro E. vm_compute in E. discriminate E.
  - vm_compute. repeat split; try discriminate. intros j f [a [p [H _]]]. discriminate.
Qed.
