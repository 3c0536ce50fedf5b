(** Proofs about SDT files on disk. *)
From Verif Require Import Base SettingsModel SettingsProofs SdtModel DoubleText SdtSpec SdtProofs SdtReadProofs SdtUseProofs SessionModel SessionSpec.
From Coq Require Import ZArith QArith.
Local Open Scope Z_scope.

(** * Variables *)

(** Two objects with the same variables. *)
Definition same_vars (r r' : reader) : Prop :=
  (forall n, find n (r_mats r) = find n (r_mats r')) /\ (forall n, find n (r_strs r) = find n (r_strs r')).
Lemma same_result : forall r r' c, same_vars r r' -> result r c = result r' c.
Proof.
  intros r r' c [M S]. unfold result. destruct c; cbn [do_read]; unfold with_matrix; rewrite ?M, ?S; try reflexivity;
    (destruct (find _ (r_mats r')) as [c|]; [|reflexivity]);
    repeat (match goal with |- context [if ?b then _ else _] => destruct b end; try reflexivity);
    destruct (elements (c_mat c)); reflexivity.
Qed.

Lemma find_app : forall (A : Type) n (a b : list (str * A)),
  find n (a ++ b) = match find n a with Some x => Some x | None => find n b end.
Proof.
  induction a as [|[k v] a IH]; intro b; [reflexivity|]. cbn [app find]. destruct (str_eqb n k); [reflexivity|apply IH].
Qed.
Lemma find_fresh : forall n (l : list (str * matrix)),
  find n (map (fun p => (fst p, Cell (snd p) true true)) l) = option_map (fun m => Cell m true true) (find n l).
Proof. induction l as [|[k v] l IH]; [reflexivity|]. cbn [map find fst snd]. destruct (str_eqb n k); [reflexivity|exact IH]. Qed.

Definition added (old : reader) (st : store) (rd : reader) : Prop := same_vars rd (behind old st).

Lemma added_matrix : forall old st rd name m, added old st rd ->
  added old (Store (emplace name m (st_mats st)) (st_strs st)) (Reader (emplace name (Cell m true true) (r_mats rd)) (r_strs rd)).
Proof.
  intros old st rd name m [M S]. split; [|exact S]. intro n. cbn [r_mats behind open_store st_mats] in *.
  rewrite find_emplace, M, !find_app, !find_fresh, find_emplace.
  destruct (find n (r_mats old)); [reflexivity|]. destruct (find n (st_mats st)); [reflexivity|].
  cbn [option_map]. destruct (str_eqb n name); reflexivity.
Qed.
Lemma added_string : forall old st rd name v, added old st rd ->
  added old (Store (st_mats st) (emplace name v (st_strs st))) (Reader (r_mats rd) (emplace name v (r_strs rd))).
Proof.
  intros old st rd name v [M S]. split; [exact M|]. intro n. cbn [r_strs behind st_strs] in *.
  rewrite find_emplace, S, !find_app, find_emplace.
  destruct (find n (r_strs old)); [reflexivity|]. destruct (find n (st_strs st)); reflexivity.
Qed.

Lemma load_into_rel : forall rnd mem old f type ls st rd, added old st rd ->
  match load_loop rnd mem f type ls st with
  | None => load_into rnd mem f type ls rd = None
  | Some (Ok st') => exists rd', load_into rnd mem f type ls rd = Some (Ok tt, rd') /\ added old st' rd'
  | Some Throw => exists rd' st', load_into rnd mem f type ls rd = Some (Throw, rd') /\ added old st' rd'
  | Some UB => exists rd', load_into rnd mem f type ls rd = Some (UB, rd')
  end.
Proof.
  intros rnd mem old. induction f as [|f IH]; intros type ls st rd A; [reflexivity|].
  rewrite load_loop_step. unfold load_step. cbn [load_into]. destruct ls as [|line ls'].
  { exists rd. split; [reflexivity|exact A]. }
  destruct line as [|c line]; [apply IH; exact A|].
  destruct (match get_word (c :: line) with Some (w, r) => (w, r) | None => (type, []) end) as [t' s].
  assert (T : exists rd' st', Some (@Throw unit, rd) = Some (Throw, rd') /\ added old st' rd') by (exists rd, st; split; [reflexivity|exact A]).
  destruct (str_eqb t' (str_of "@matrix")).
  - destruct (get_word s) as [[name s1]|]; [|exact T]. destruct (get_u64 s1) as [[rows s2]|]; [|exact T].
    destruct (get_u64 s2) as [[cols s3]|]; [|exact T].
    destruct (load_matrix rnd mem rows cols ls') as [[m ls'']| |]; [|exact T|exists rd; reflexivity].
    apply IH. apply added_matrix. exact A.
  - destruct (str_eqb t' (str_of "@string")); [|exact T].
    destruct (get_word s) as [[name s1]|]; [|exact T]. destruct (get_u64 s1) as [[n s2]|]; [|exact T].
    destruct (load_string ls') as [v ls'']. apply IH. apply added_string. exact A.
Qed.

Lemma added_nothing : forall rd, added rd (Store [] []) rd.
Proof. intro rd. split; intro n; cbn [behind r_mats r_strs open_store map st_mats st_strs]; rewrite app_nil_r; reflexivity. Qed.

(** * Files *)
Lemma set_file_same : forall fs f t, set_file fs f t f = Some t.
Proof. intros. unfold set_file. rewrite str_eqb_refl. reflexivity. Qed.
Lemma set_file_other : forall fs f t g, g <> f -> set_file fs f t g = fs g.
Proof. intros fs f t g H. unfold set_file. apply str_eqb_neq in H. rewrite H. reflexivity. Qed.
Lemma set_obj_same : forall ob i o, set_obj ob i o i = o.
Proof. intros. unfold set_obj. rewrite Nat.eqb_refl. reflexivity. Qed.
Lemma set_obj_other : forall ob i o j, j <> i -> set_obj ob i o j = ob j.
Proof. intros ob i o j H. unfold set_obj. apply Nat.eqb_neq in H. rewrite H. reflexivity. Qed.

Lemma stream_write_nil : forall fs st, stream_write fs st [] = (st, fs).
Proof. reflexivity. Qed.
Lemma stream_write_file : forall fs st t, s_file (fst (stream_write fs st t)) = s_file st \/
  exists f a p, s_file st = Some (f, a, p) /\ s_file (fst (stream_write fs st t)) = Some (f, a, (p + length t)%nat).
Proof.
  intros fs [sf g] t. destruct t as [|x t]; [left; reflexivity|]. unfold stream_write. cbn [s_good s_file].
  destruct g; [|left; reflexivity]. destruct sf as [[[f a] p]|]; [|left; reflexivity].
  destruct a; [left; reflexivity| |]; right; eexists _, _, _; split; reflexivity.
Qed.
Lemma stream_write_other : forall fs st t f, ~ (exists a p, s_file st = Some (f, a, p) /\ a <> AIn) ->
  snd (stream_write fs st t) f = fs f.
Proof.
  intros fs [sf g] t f N. destruct t as [|x t]; [reflexivity|]. unfold stream_write. cbn [s_good s_file] in *.
  destruct g; [|reflexivity]. destruct sf as [[[f' a] p]|]; [|reflexivity].
  destruct a; [reflexivity| |]; cbn [snd]; apply set_file_other; intros ->; apply N; eexists _, _; split; try reflexivity; discriminate.
Qed.
Lemma stream_open_fs : forall perm fs st f a g, (a = AOut -> s_file st = None -> perm f a = true -> g <> f) ->
  snd (stream_open perm fs st f a) g = fs g.
Proof.
  intros perm fs [sf b] f a g H. unfold stream_open. cbn [s_file] in *. destruct sf; [reflexivity|].
  destruct a; [destruct (fs f); [destruct (perm f AIn)|]; reflexivity|destruct (fs f); [destruct (perm f AInOut)|]; reflexivity|].
  destruct (perm f AOut) eqn:E; [|reflexivity]. cbn [snd]. apply set_file_other. apply H; auto.
Qed.
Lemma stream_open_file : forall perm fs st f a,
  s_file (fst (stream_open perm fs st f a)) = s_file st \/ s_file (fst (stream_open perm fs st f a)) = Some (f, a, O).
Proof.
  intros perm fs [sf b] f a. unfold stream_open. cbn [s_file]. destruct sf; [left; reflexivity|].
  destruct a; [destruct (fs f); [destruct (perm f AIn)|]|destruct (fs f); [destruct (perm f AInOut)|]|destruct (perm f AOut)]; auto.
Qed.

(** What Open(READ) does to the files and the stream. *)
Lemma read_open_fs : forall rnd mem perm fs o f g, snd (sdt_open rnd mem perm fs o f MRead) g = fs g.
Proof.
  intros rnd mem perm fs o f g. cbn [sdt_open].
  pose proof (stream_open_fs perm fs (o_stream o) f AIn g ltac:(discriminate)) as F.
  destruct (stream_open perm fs (o_stream o) f AIn) as [st fs']. cbn [snd] in F.
  destruct (s_good st); [|exact F]. destruct (fs' f); [|exact F].
  destruct (load_into _ _ _ _ _ _) as [[[]]|]; exact F.
Qed.
Lemma read_open_file : forall rnd mem perm fs o f g a p,
  s_file (o_stream (snd (fst (sdt_open rnd mem perm fs o f MRead)))) = Some (g, a, p) ->
  s_file (o_stream o) = Some (g, a, p) \/ a = AIn.
Proof.
  intros rnd mem perm fs o f g a p. cbn [sdt_open].
  pose proof (stream_open_file perm fs (o_stream o) f AIn) as F.
  destruct (stream_open perm fs (o_stream o) f AIn) as [st fs']. cbn [fst] in F.
  assert (C : forall b, s_file (stream_close (Stream (s_file st) b)) = None) by (intro b; unfold stream_close; cbn; destruct (s_file st); reflexivity).
  assert (C' : s_file (stream_close st) = None) by (unfold stream_close; destruct (s_file st); reflexivity).
  assert (K : s_file st = Some (g, a, p) -> s_file (o_stream o) = Some (g, a, p) \/ a = AIn).
  { intro H. rewrite H in F. destruct F as [F|F]; [left; auto|right; congruence]. }
  destruct (s_good st); cbn [fst snd o_stream].
  - destruct (fs' f); cbn [fst snd o_stream]; [|rewrite C; discriminate].
    destruct (load_into _ _ _ _ _ _) as [[[]]|]; cbn [fst snd o_stream s_file]; try exact K; [rewrite C; discriminate|].
    intro H. left. exact H.
  - rewrite C'. discriminate.
Qed.

Section Calls.
Variable rnd : Q -> option Q.
Variable mem : Z.
Variable perm : str -> faccess -> bool.
Notation do_call := (do_call rnd mem perm).
Notation do_calls := (do_calls rnd mem perm).

Lemma other_object : forall w c j, j <> on c -> w_obj (snd (do_call w c)) j = w_obj w j.
Proof.
  intros w c j H. destruct c; cbn [on do_call SessionModel.do_call] in *; try reflexivity; try (cbn [snd w_obj]; apply set_obj_other; exact H).
  - destruct (sdt_open rnd mem perm (w_fs w) (w_obj w i) f m) as [[r o] fs]. cbn [snd w_obj]. apply set_obj_other. exact H.
  - destruct (stream_write _ _ _). cbn [snd w_obj]. apply set_obj_other. exact H.
  - destruct (do_read _ _). cbn [snd w_obj]. apply set_obj_other. exact H.
Qed.

(** Only opening for writing and writing to an open file change a file. *)
Lemma other_file : forall w c f,
  (forall i, c = COpen i f MWrite -> closed (w_obj w i) -> perm f AOut = false) ->
  (forall i x, c = CWrite i x -> ~ writes_to (w_obj w i) f) ->
  w_fs (snd (do_call w c)) f = w_fs w f.
Proof.
  intros w c f HO HW. destruct c; cbn [SessionModel.do_call]; try reflexivity.
  - assert (E : snd (sdt_open rnd mem perm (w_fs w) (w_obj w i) f0 m) f = w_fs w f).
    { destruct m.
      - apply read_open_fs.
      - cbn [sdt_open]. pose proof (stream_open_fs perm (w_fs w) (o_stream (w_obj w i)) f0 AInOut f ltac:(discriminate)) as F.
        destruct (stream_open _ _ _ _ _). exact F.
      - cbn [sdt_open].
        assert (F : snd (stream_open perm (w_fs w) (o_stream (w_obj w i)) f0 AOut) f = w_fs w f).
        { apply stream_open_fs. intros _ C P <-. rewrite (HO i eq_refl C) in P. discriminate. }
        destruct (stream_open _ _ _ _ _). exact F. }
    destruct (sdt_open rnd mem perm (w_fs w) (w_obj w i) f0 m) as [[r o] fs]. exact E.
  - pose proof (stream_write_other (w_fs w) (o_stream (w_obj w i)) (write_call c) f (HW i c eq_refl)) as F.
    destruct (stream_write _ _ _). exact F.
  - destruct (do_read _ _). reflexivity.
Qed.

(** An object comes to hold a file for writing only by opening it so. *)
Lemma becomes_writer : forall w c i f, writes_to (w_obj (snd (do_call w c)) i) f ->
  writes_to (w_obj w i) f \/ exists m, c = COpen i f m /\ m <> MRead.
Proof.
  intros w c i f H. destruct (Nat.eq_dec i (on c)) as [E|E]; [|left; rewrite (other_object w c i E) in H; exact H].
  destruct c; cbn [on] in E; subst; cbn [SessionModel.do_call] in H; try (left; exact H).
  - cbn [snd w_obj] in H. rewrite set_obj_same in H. destruct H as [a [p [H _]]]. discriminate.
  - destruct m.
    + left. pose proof (read_open_file rnd mem perm (w_fs w) (w_obj w i0) f0) as F.
      destruct (sdt_open rnd mem perm (w_fs w) (w_obj w i0) f0 MRead) as [[r o] fs]. cbn [snd w_obj fst] in *. rewrite set_obj_same in H.
      destruct H as [a [p [H N]]]. destruct (F _ _ _ H) as [G|G]; [exists a, p; split; assumption|contradiction].
    + cbn [sdt_open] in H. pose proof (stream_open_file perm (w_fs w) (o_stream (w_obj w i0)) f0 AInOut) as F.
      destruct (stream_open perm (w_fs w) (o_stream (w_obj w i0)) f0 AInOut) as [st fs]. cbn [snd w_obj fst] in *. rewrite set_obj_same in H.
      destruct H as [a [p [H N]]]. cbn [o_stream] in H. rewrite H in F. destruct F as [F|F].
      * left. exists a, p. split; [symmetry; exact F|exact N].
      * right. exists MUpdate. injection F as -> _ _. split; [reflexivity|discriminate].
    + cbn [sdt_open] in H. pose proof (stream_open_file perm (w_fs w) (o_stream (w_obj w i0)) f0 AOut) as F.
      destruct (stream_open perm (w_fs w) (o_stream (w_obj w i0)) f0 AOut) as [st fs]. cbn [snd w_obj fst] in *. rewrite set_obj_same in H.
      destruct H as [a [p [H N]]]. cbn [o_stream] in H. rewrite H in F. destruct F as [F|F].
      * left. exists a, p. split; [symmetry; exact F|exact N].
      * right. exists MWrite. injection F as -> _ _. split; [reflexivity|discriminate].
  - cbn [snd w_obj] in H. rewrite set_obj_same in H. destruct H as [a [p [H _]]]. cbn [o_stream] in H.
    unfold stream_close in H. destruct (s_file (o_stream (w_obj w i0))); discriminate.
  - pose proof (stream_write_file (w_fs w) (o_stream (w_obj w i0)) (write_call c)) as F.
    destruct (stream_write _ _ _) as [st fs]. cbn [snd w_obj fst] in *. rewrite set_obj_same in H.
    destruct H as [a [p [H N]]]. cbn [o_stream] in H. rewrite H in F. left. destruct F as [F|[f' [a' [p' [F G]]]]].
    + exists a, p. split; [symmetry; exact F|exact N].
    + injection G as -> -> ->. exists a', p'. split; [exact F|exact N].
  - destruct (do_read _ _). cbn [snd w_obj] in H. rewrite set_obj_same in H. left. exact H.
Qed.

Lemma do_calls_cons : forall w c r w', do_calls w (c :: r) = Some w' ->
  fst (do_call w c) <> UB /\ do_calls (snd (do_call w c)) r = Some w'.
Proof.
  intros w c r w' H. cbn [SessionModel.do_calls] in H. destruct (do_call w c) as [[]]; cbn [fst snd]; try discriminate; split; congruence.
Qed.

(** * The text of a file written through one object *)

Lemma overlay_front : forall (t u old : str), overlay (length t) u (t ++ skipn (length t) old) = (t ++ u) ++ skipn (length (t ++ u)) old.
Proof.
  intros t u old. unfold overlay. rewrite firstn_app, firstn_all, Nat.sub_diag. cbn [firstn]. rewrite app_nil_r, app_length.
  replace (length t - _)%nat with 0%nat by lia. cbn [repeat app]. rewrite <- app_assoc. f_equal. f_equal.
  rewrite skipn_app. rewrite skipn_all2 by lia. cbn [app]. replace (length t + length u - length t)%nat with (length u) by lia.
  rewrite app_length. clear. revert t. induction old as [|x old IH]; intro t; [rewrite !skipn_nil; reflexivity|].
  destruct t as [|y t]; [reflexivity|]. cbn [length Nat.add skipn]. apply IH.
Qed.

Definition holding (w : world) (i : nat) (f : str) (t old : str) : Prop :=
  (exists a, s_file (o_stream (w_obj w i)) = Some (f, a, length t) /\ a <> AIn) /\ s_good (o_stream (w_obj w i)) = true /\
  w_fs w f = Some (t ++ skipn (length t) old) /\ forall j, j <> i -> ~ writes_to (w_obj w j) f.

Lemma holding_step : forall w i f t old c, holding w i f t old -> leaves i f c ->
  holding (snd (do_call w c)) i f (t ++ write_file (written i [c])) old.
Proof.
  intros w i f t old c [[a [Ha Na]] [G [F O]]] L.
  assert (O' : forall j, j <> i -> ~ writes_to (w_obj (snd (do_call w c)) j) f).
  { intros j Hj H. apply becomes_writer in H. destruct H as [H|[m [E Nm]]]; [exact (O j Hj H)|].
    subst c. destruct L as [_ L]. apply Nm. apply L. reflexivity. }
  assert (K : on c <> i -> w_fs (snd (do_call w c)) f = w_fs w f).
  { intro Hi. apply other_file.
    - intros j -> _. destruct L as [_ L]. specialize (L eq_refl). discriminate.
    - intros j x -> H. exact (O j Hi H). }
  assert (S : (on c <> i -> holding (snd (do_call w c)) i f (t ++ write_file (written i [c])) old)).
  { intro Hi. assert (W : written i [c] = []).
    { destruct c; cbn [written flat_map on] in *; try reflexivity. apply Nat.eqb_neq in Hi. rewrite Hi. reflexivity. }
    rewrite W. cbn [write_file flat_map]. rewrite app_nil_r. unfold holding. rewrite (K Hi), (other_object w c i) by congruence.
    split; [exists a; split; assumption|]. split; [exact G|]. split; assumption. }
  destruct (Nat.eq_dec (on c) i) as [E|E]; [|exact (S E)].
  destruct c; cbn [on leaves] in *; subst; try contradiction.
  - destruct L as [L _]. contradiction.
  - (* write *)
    cbn [written flat_map]. rewrite Nat.eqb_refl. cbn [app write_file flat_map]. rewrite app_nil_r.
    unfold holding in *. cbn [SessionModel.do_call] in *. set (u := write_call c) in *. clearbody u.
    destruct u as [|x u].
    + rewrite stream_write_nil in *. cbn [snd w_obj w_fs] in *. rewrite set_obj_same. cbn [o_stream]. rewrite app_nil_r.
      split; [exists a; split; assumption|]. split; [exact G|]. split; [exact F|exact O'].
    + unfold stream_write in *. rewrite G, Ha in *.
      assert (P : overlay (length t) (x :: u) (match w_fs w f with Some t0 => t0 | None => [] end) = (t ++ x :: u) ++ skipn (length (t ++ x :: u)) old).
      { rewrite F. apply overlay_front. }
      destruct a; [contradiction| |]; cbn [snd w_obj w_fs] in *; rewrite set_obj_same; cbn [o_stream s_file s_good]; rewrite set_file_same, P, app_length;
        (split; [eexists; split; [reflexivity|discriminate]|split; [reflexivity|split; [reflexivity|exact O']]]).
  - cbn [SessionModel.do_call snd written flat_map write_file]. rewrite app_nil_r.
    split; [exists a; split; assumption|]. split; [exact G|]. split; assumption.
  - cbn [SessionModel.do_call written flat_map write_file] in *. rewrite app_nil_r. destruct (do_read _ _). cbn [snd] in *.
    unfold holding. cbn [w_obj w_fs] in *. rewrite set_obj_same. cbn [o_stream].
    split; [exists a; split; assumption|]. split; [exact G|]. split; [exact F|exact O'].
  - cbn [SessionModel.do_call snd written flat_map write_file]. rewrite app_nil_r.
    split; [exists a; split; assumption|]. split; [exact G|]. split; assumption.
Qed.

Lemma write_file_app : forall a b, write_file (a ++ b) = write_file a ++ write_file b.
Proof. intros a b. unfold write_file. apply flat_map_app. Qed.

Lemma holding_steps : forall cs w i f t old w', holding w i f t old -> (forall c, In c cs -> leaves i f c) ->
  do_calls w cs = Some w' -> holding w' i f (t ++ write_file (written i cs)) old.
Proof.
  induction cs as [|c cs IH]; intros w i f t old w' H L R.
  - injection R as <-. cbn. rewrite app_nil_r. exact H.
  - apply do_calls_cons in R. destruct R as [_ R].
    pose proof (holding_step w i f t old c H (L c (or_introl eq_refl))) as H1.
    pose proof (IH _ _ _ _ _ _ H1 (fun d Hd => L d (or_intror Hd)) R) as H2.
    rewrite <- app_assoc, <- write_file_app in H2.
    replace (written i [c] ++ written i cs) with (written i (c :: cs)) in H2; [exact H2|].
    unfold written. cbn [flat_map]. rewrite app_nil_r. reflexivity.
Qed.

Lemma open_write_holding : forall w i f, closed (w_obj w i) -> perm f AOut = true -> (forall j, j <> i -> ~ writes_to (w_obj w j) f) ->
  holding (snd (do_call w (COpen i f MWrite))) i f [] [].
Proof.
  intros w i f C P O. unfold closed in C. cbn [SessionModel.do_call sdt_open]. unfold stream_open. rewrite C, P. cbn [snd w_obj w_fs].
  unfold holding. cbn [w_obj w_fs]. rewrite set_obj_same, set_file_same. cbn.
  split; [exists AOut; split; [reflexivity|discriminate]|]. split; [reflexivity|]. split; [reflexivity|].
  intros j Hj. rewrite set_obj_other by exact Hj. exact (O j Hj).
Qed.
Lemma open_update_holding : forall w i f old, closed (w_obj w i) -> perm f AInOut = true -> w_fs w f = Some old ->
  (forall j, j <> i -> ~ writes_to (w_obj w j) f) ->
  holding (snd (do_call w (COpen i f MUpdate))) i f [] old.
Proof.
  intros w i f old C P F O. unfold closed in C. cbn [SessionModel.do_call sdt_open]. unfold stream_open. rewrite C, F, P. cbn [snd w_obj w_fs].
  unfold holding. cbn [w_obj w_fs]. rewrite set_obj_same, F. cbn.
  split; [exists AInOut; split; [reflexivity|discriminate]|]. split; [reflexivity|]. split; [reflexivity|].
  intros j Hj. rewrite set_obj_other by exact Hj. exact (O j Hj).
Qed.

(** * Opening for reading *)
Lemma open_read_ok : forall w i f text st, closed (w_obj w i) -> perm f AIn = true -> w_fs w f = Some text ->
  load rnd mem text = Some (Ok st) ->
  fst (do_call w (COpen i f MRead)) = Ok Done /\ closed (w_obj (snd (do_call w (COpen i f MRead))) i) /\
  same_vars (o_vars (w_obj (snd (do_call w (COpen i f MRead))) i)) (behind (o_vars (w_obj w i)) st).
Proof.
  intros w i f text st C P F L. unfold closed in C. cbn [SessionModel.do_call sdt_open]. unfold stream_open. rewrite C, F, P.
  cbn [s_good]. rewrite F. unfold load in L.
  pose proof (load_into_rel rnd mem (o_vars (w_obj w i)) (S (length (lines_of text))) [] (lines_of text) (Store [] []) (o_vars (w_obj w i)) (added_nothing _)) as R.
  rewrite L in R. destruct R as [rd [E A]]. rewrite E. cbn [fst snd w_obj obind]. rewrite set_obj_same. cbn [o_vars o_stream].
  split; [reflexivity|]. split; [reflexivity|exact A].
Qed.
Lemma open_read_throw : forall w i f text, closed (w_obj w i) -> perm f AIn = true -> w_fs w f = Some text ->
  load rnd mem text = Some Throw ->
  fst (do_call w (COpen i f MRead)) = Throw /\ ~ closed (w_obj (snd (do_call w (COpen i f MRead))) i) /\
  exists st, same_vars (o_vars (w_obj (snd (do_call w (COpen i f MRead))) i)) (behind (o_vars (w_obj w i)) st).
Proof.
  intros w i f text C P F L. unfold closed in C. cbn [SessionModel.do_call sdt_open]. unfold stream_open. rewrite C, F, P.
  cbn [s_good]. rewrite F. unfold load in L.
  pose proof (load_into_rel rnd mem (o_vars (w_obj w i)) (S (length (lines_of text))) [] (lines_of text) (Store [] []) (o_vars (w_obj w i)) (added_nothing _)) as R.
  rewrite L in R. destruct R as [rd [st [E A]]]. rewrite E. cbn [fst snd w_obj obind]. rewrite set_obj_same. cbn [o_vars o_stream s_file].
  split; [reflexivity|]. split; [discriminate|]. exists st. exact A.
Qed.
Lemma open_read_ub : forall w i f text, closed (w_obj w i) -> perm f AIn = true -> w_fs w f = Some text ->
  load rnd mem text = Some UB -> fst (do_call w (COpen i f MRead)) = UB.
Proof.
  intros w i f text C P F L. unfold closed in C. cbn [SessionModel.do_call sdt_open]. unfold stream_open. rewrite C, F, P.
  cbn [s_good]. rewrite F. unfold load in L.
  pose proof (load_into_rel rnd mem (o_vars (w_obj w i)) (S (length (lines_of text))) [] (lines_of text) (Store [] []) (o_vars (w_obj w i)) (added_nothing _)) as R.
  rewrite L in R. destruct R as [rd E]. rewrite E. reflexivity.
Qed.
(** A file that cannot be opened, or an object that is still open: nothing is read, no
    error is reported and the object is closed afterwards. *)
Lemma open_read_nothing : forall w i f, ~ closed (w_obj w i) \/ w_fs w f = None \/ perm f AIn = false ->
  fst (do_call w (COpen i f MRead)) = Ok Done /\ closed (w_obj (snd (do_call w (COpen i f MRead))) i) /\
  o_vars (w_obj (snd (do_call w (COpen i f MRead))) i) = o_vars (w_obj w i).
Proof.
  intros w i f H.
  assert (E : s_good (fst (stream_open perm (w_fs w) (o_stream (w_obj w i)) f AIn)) = false).
  { unfold stream_open. unfold closed in H. destruct (s_file (o_stream (w_obj w i))) as [x|]; [reflexivity|].
    destruct (w_fs w f); [|reflexivity]. destruct H as [H|[H|H]]; [contradiction|discriminate|]. rewrite H. reflexivity. }
  cbn [SessionModel.do_call sdt_open]. destruct (stream_open perm (w_fs w) (o_stream (w_obj w i)) f AIn) as [st fs]. cbn [fst] in E.
  rewrite E. cbn [fst snd w_obj obind]. rewrite set_obj_same. split; [reflexivity|]. split; [|reflexivity].
  unfold closed. cbn [o_stream]. unfold stream_close. destruct (s_file st); reflexivity.
Qed.
End Calls.
