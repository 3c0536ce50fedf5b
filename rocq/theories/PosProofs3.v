From Verif Require Import Base ConfigModel LexSpec LexProofs InterpSpec InterpProofs ConfigProofs PosModel PosSpec PosProofs PosProofs2.

(** * Forgetting positions: the interpreter *)
Definition omap {A B} (f : A -> B) (o : outcome A) : outcome B :=
  match o with Ok x => Ok (f x) | Throw => Throw | UB => UB end.

Lemma erase_cons : forall t r, erase_toks (t :: r) = pt t :: erase_toks r.
Proof. reflexivity. Qed.

Lemma padvance_erase : forall ts,
  omap (fun p => (fst p, erase_toks (snd p))) (padvance ts) = advance (erase_toks ts).
Proof.
  intros [|t r]; [reflexivity|]. rewrite erase_cons. unfold padvance, advance.
  destruct (ttype_eqb (ttyp (pt t)) TEOF); [reflexivity|]. destruct r as [|t' r]; reflexivity.
Qed.

Lemma ptokent_n_erase : forall ts, ptokent_n ts = tokent_n (erase_toks ts).
Proof.
  intros [|t r]; [reflexivity|]. rewrite erase_cons. unfold ptokent_n, tokent_n.
  destruct (ttype_eqb (ttyp (pt t)) TEOF); [reflexivity|]. destruct r as [|t' r]; reflexivity.
Qed.

Lemma padvance_to_erase : forall ts, omap erase_toks (padvance_to ts) = advance_to (erase_toks ts).
Proof.
  induction ts as [|t r IH]; [reflexivity|]. rewrite erase_cons. cbn [padvance_to advance_to].
  destruct r as [|t' r]; [reflexivity|]. rewrite erase_cons in *. cbn [ttyp].
  destruct (is_restart (ttyp (pt t'))); [reflexivity|].
  destruct (ttype_eqb (ttyp (pt t)) TEOF); [reflexivity|].
  destruct (ttype_eqb (ttyp (pt t')) TEOF); [reflexivity|]. exact IH.
Qed.

Lemma pcur_erase : forall ts, pcur ts = cur_val (erase_toks ts).
Proof. intros [|t r]; reflexivity. Qed.

Lemma pcollect_erase : forall ts acc,
  omap (fun p => (erase_toks (fst p), snd p)) (pcollect ts acc) = collect_values (erase_toks ts) acc.
Proof.
  induction ts as [|t r IH]; intro acc; [reflexivity|]. rewrite erase_cons. cbn [pcollect collect_values].
  destruct (ttype_eqb (ttyp (pt t)) TEOF); [reflexivity|].
  destruct r as [|t' r]; [reflexivity|]. rewrite erase_cons in *.
  destruct (ttype_eqb (ttyp (pt t')) TValue); [apply IH|reflexivity].
Qed.

Definition eps (r : psres) : sres :=
  match r with
  | PSOk ts root path => SOk (erase_toks ts) root path
  | PSExn _ ts root path => SExn (erase_toks ts) root path
  | PSUB => SUB
  end.

Lemma pexpect_erase : forall ty ts root path pk k, (forall ts', eps (pk ts') = k (erase_toks ts')) ->
  eps (pexpect ty ts root path pk) = expect ty (erase_toks ts) root path k.
Proof.
  intros ty ts root path pk k Hk. unfold pexpect, expect. rewrite <- padvance_erase.
  destruct (padvance ts) as [[more ts']| |]; cbn [omap fst snd]; try reflexivity.
  destruct ts' as [|t r]; [reflexivity|]. rewrite erase_cons.
  destruct (more && ttype_eqb (ttyp (pt t)) ty); [rewrite Hk; reflexivity|reflexivity].
Qed.

Lemma pstmt_setting_erase : forall ts root path,
  eps (pstmt_setting ts root path) = stmt_setting (erase_toks ts) root path.
Proof.
  intros ts root path. unfold pstmt_setting, stmt_setting. rewrite pcur_erase.
  apply pexpect_erase. intro ts1. apply pexpect_erase. intro ts2.
  rewrite pcur_erase, <- pcollect_erase.
  destruct (pcollect ts2 [cur_val (erase_toks ts2)]) as [[ts3 vals]| |]; cbn [omap fst snd]; try reflexivity.
  apply pexpect_erase. intro ts4. reflexivity.
Qed.

Lemma popen_block_erase : forall bt n s ts root path,
  eps (popen_block bt n s ts root path) = open_block bt n s (erase_toks ts) root path.
Proof.
  intros bt n s ts root path. unfold popen_block, open_block. apply pexpect_erase. intro ts'.
  destruct (get_at path root) as [b|]; [|reflexivity].
  destruct (add_sub_block b bt n s) as [b' i]. reflexivity.
Qed.

Lemma pstmt_block_erase : forall types ts root path,
  eps (pstmt_block types ts root path) = stmt_block types (erase_toks ts) root path.
Proof.
  intros types ts root path. unfold pstmt_block, stmt_block. rewrite pcur_erase.
  apply pexpect_erase. intro ts1. rewrite ptokent_n_erase, pcur_erase.
  destruct (tokent_n (erase_toks ts1)) as [ty| |]; try reflexivity.
  destruct (ttype_eqb ty TLPar).
  - rewrite <- padvance_erase. destruct (padvance ts1) as [[m ts2]| |]; cbn [omap fst snd]; try reflexivity.
    apply pexpect_erase. intro ts3. rewrite pcur_erase. apply pexpect_erase. intro ts4. apply popen_block_erase.
  - apply popen_block_erase.
Qed.

Lemma pstmt_erase : forall types ts root path, eps (pstmt types ts root path) = stmt types (erase_toks ts) root path.
Proof.
  intros types [|t r] root path; [reflexivity|]. rewrite erase_cons. unfold pstmt, stmt. cbn [ttyp].
  destruct (ttyp (pt t)) eqn:E; try reflexivity.
  - rewrite <- erase_cons. apply pstmt_setting_erase.
  - rewrite <- erase_cons. apply pstmt_block_erase.
  - unfold stmt_end. destruct path; reflexivity.
Qed.

Definition some_log (log : list report) : bool := match log with [] => false | _ => true end.

Definition einterp (r : list report * pires) : ires :=
  match snd r with
  | PIOk root => IOk root (some_log (fst r))
  | PIThrow _ _ _ => IThrow (some_log (fst r))
  | PIUB => IUB
  | PIFuel => IFuel
  end.

Lemma pfinish_erase : forall log t r root path,
  einterp (log, pfinish (t :: r) root path) = interp_finish root path (some_log log).
Proof. intros log t r root path. unfold pfinish, interp_finish. destruct path; reflexivity. Qed.

Lemma padvance_false : forall ts ts', padvance ts = Ok (false, ts') -> exists t r, ts' = t :: r.
Proof.
  intros [|t r] ts' H; [discriminate|]. unfold padvance in H.
  destruct (ttype_eqb (ttyp (pt t)) TEOF).
  - injection H as E. exists t, r. symmetry. exact E.
  - destruct r as [|t' r]; [discriminate|]. injection H as E1 E2. exists t', r. symmetry. exact E2.
Qed.

Lemma some_log_snoc : forall log r, some_log (log ++ [r]) = true.
Proof. intros [|x log] r; reflexivity. Qed.

Lemma pinterp_loop_erase : forall types f ts root path log,
  einterp (pinterp_loop types f ts root path log) =
  interp_loop types f (erase_toks ts) root path (some_log log).
Proof.
  intros types f. induction f as [|f IH]; intros ts root path log; [reflexivity|].
  cbn [pinterp_loop interp_loop]. rewrite <- pstmt_erase.
  destruct (pstmt types ts root path) as [ts1 root1 path1|r ts1 root1 path1|]; cbn [eps].
  - rewrite <- padvance_erase. destruct (padvance ts1) as [[b ts2]| |] eqn:E; cbn [omap fst snd]; try reflexivity.
    destruct b; [apply IH|]. destruct (padvance_false _ _ E) as (t & r & ->). apply pfinish_erase.
  - rewrite <- padvance_to_erase. destruct (padvance_to ts1) as [ts2| |]; cbn [omap]; try reflexivity.
    rewrite <- padvance_erase. destruct (padvance ts2) as [[b ts3]| |] eqn:E; cbn [omap fst snd]; try reflexivity.
    rewrite <- (some_log_snoc log r).
    destruct b; [apply IH|]. destruct (padvance_false _ _ E) as (t & r' & ->). apply pfinish_erase.
  - reflexivity.
Qed.

Lemma pinterpret_erase : forall types ts, einterp (pinterpret types ts) = interpret types (erase_toks ts).
Proof.
  intros types ts. unfold pinterpret, interpret. rewrite pinterp_loop_erase.
  unfold erase_toks. rewrite map_length. reflexivity.
Qed.

Lemma read_script_erase : forall types fs d infile src text,
  from_string types fs d text =
  match read_script types fs d infile src text with
  | RMissing _ _ _ _ => FThrow
  | RDiverge => FDiverge
  | RRead log (PIOk root) => FOk root (some_log log)
  | RRead log (PIThrow _ _ _) => FThrow
  | RRead log PIUB => FUB
  | RRead log PIFuel => FDiverge
  end.
Proof.
  intros types fs d infile src text. unfold from_string, read_script.
  rewrite <- (plex_erase types fs src d infile text).
  destruct (plex types fs src d infile text) as [ts a b c|l c i n|]; cbn [elex]; try reflexivity.
  rewrite <- pinterpret_erase. unfold einterp.
  destruct (pinterpret types ts) as [log res]. cbn [fst snd]. destruct res; reflexivity.
Qed.

(** * Messages are about tokens *)
Definition suffix (a b : list ptok) : Prop := exists p, b = p ++ a.
Lemma suffix_refl : forall a, suffix a a. Proof. intro a. exists []. reflexivity. Qed.
Lemma suffix_trans : forall a b c, suffix a b -> suffix b c -> suffix a c.
Proof. intros a b c [p E1] [q E2]. exists (q ++ p). rewrite E2, E1, app_assoc. reflexivity. Qed.
Lemma suffix_tail : forall t a, suffix a (t :: a). Proof. intros t a. exists [t]. reflexivity. Qed.
Lemma suffix_In : forall a b x, suffix a b -> In x a -> In x b.
Proof. intros a b x [p E] H. rewrite E. apply in_or_app. right. exact H. Qed.

Lemma padvance_suffix : forall ts b ts', padvance ts = Ok (b, ts') -> suffix ts' ts.
Proof.
  intros [|t r] b ts' H; [discriminate|]. unfold padvance in H.
  destruct (ttype_eqb (ttyp (pt t)) TEOF).
  - injection H as _ E. rewrite <- E. apply suffix_refl.
  - destruct r as [|t' r]; [discriminate|]. injection H as _ E. rewrite <- E. apply suffix_tail.
Qed.

Lemma padvance_to_suffix : forall ts ts', padvance_to ts = Ok ts' -> suffix ts' ts.
Proof.
  induction ts as [|t r IH]; intros ts' H; [discriminate|]. cbn [padvance_to] in H.
  destruct r as [|t' r]; [discriminate|].
  destruct (is_restart (ttyp (pt t'))); [injection H as E; rewrite <- E; apply suffix_refl|].
  destruct (ttype_eqb (ttyp (pt t)) TEOF); [injection H as E; rewrite <- E; apply suffix_refl|].
  destruct (ttype_eqb (ttyp (pt t')) TEOF); [injection H as E; rewrite <- E; apply suffix_tail|].
  eapply suffix_trans; [apply IH; exact H|apply suffix_tail].
Qed.

Lemma pcollect_suffix : forall ts acc ts' v, pcollect ts acc = Ok (ts', v) -> suffix ts' ts.
Proof.
  induction ts as [|t r IH]; intros acc ts' v H; [discriminate|]. cbn [pcollect] in H.
  destruct (ttype_eqb (ttyp (pt t)) TEOF); [injection H as E _; rewrite <- E; apply suffix_refl|].
  destruct r as [|t' r]; [discriminate|].
  destruct (ttype_eqb (ttyp (pt t')) TValue).
  - eapply suffix_trans; [eapply IH; exact H|apply suffix_tail].
  - injection H as E _. rewrite <- E. apply suffix_refl.
Qed.

(** What a statement leaves: a later part of the stream, and a message about the token
    where it stopped. *)
Definition sound_at (ts : list ptok) (r : psres) : Prop :=
  match r with
  | PSOk ts' _ _ => suffix ts' ts
  | PSExn rep ts' _ _ => suffix ts' ts /\ exists t r', ts' = t :: r' /\ about rep t
  | PSUB => True
  end.

Lemma sound_at_suffix : forall a b r, suffix a b -> sound_at a r -> sound_at b r.
Proof.
  intros a b r H. destruct r as [ts' x y|rep ts' x y|]; cbn [sound_at]; auto.
  - intro H1. eapply suffix_trans; eauto.
  - intros [H1 H2]. split; [eapply suffix_trans; eauto|exact H2].
Qed.

Lemma pexpect_sound : forall ty ts root path k, (forall ts', suffix ts' ts -> sound_at ts' (k ts')) ->
  sound_at ts (pexpect ty ts root path k).
Proof.
  intros ty ts root path k Hk. unfold pexpect.
  destruct (padvance ts) as [[more ts']| |] eqn:E; try exact I. apply padvance_suffix in E.
  destruct ts' as [|t r]; [exact I|].
  destruct (more && ttype_eqb (ttyp (pt t)) ty).
  - eapply sound_at_suffix; [exact E|apply Hk, E].
  - split; [exact E|]. exists t, r. split; [reflexivity|]. repeat split.
Qed.

Lemma pstmt_sound : forall types ts root path, sound_at ts (pstmt types ts root path).
Proof.
  intros types ts root path. destruct ts as [|t r]; [exact I|]. unfold pstmt.
  destruct (ttyp (pt t)) eqn:E;
    try (split; [apply suffix_refl|]; exists t, r; split; [reflexivity|]; unfold about; cbn; repeat split; symmetry; exact E).
  - unfold pstmt_setting. apply pexpect_sound. intros ts1 _. apply pexpect_sound. intros ts2 _.
    destruct (pcollect ts2 [pcur ts2]) as [[ts3 vals]| |] eqn:Ec; try exact I.
    eapply sound_at_suffix; [eapply pcollect_suffix; exact Ec|].
    apply pexpect_sound. intros ts4 _. apply suffix_refl.
  - unfold pstmt_block. apply pexpect_sound. intros ts1 _.
    assert (HO : forall bt n s ts', sound_at ts' (popen_block bt n s ts' root path)).
    { intros bt n s ts'. unfold popen_block. apply pexpect_sound. intros ts'' _.
      destruct (get_at path root) as [b|]; [|exact I]. destruct (add_sub_block b bt n s). apply suffix_refl. }
    destruct (ptokent_n ts1) as [ty| |]; try exact I.
    destruct (ttype_eqb ty TLPar); [|apply HO].
    destruct (padvance ts1) as [[m ts2]| |] eqn:Ea; try exact I.
    eapply sound_at_suffix; [eapply padvance_suffix; exact Ea|].
    apply pexpect_sound. intros ts3 _. apply pexpect_sound. intros ts4 _. apply HO.
  - destruct path as [|i path].
    + split; [apply suffix_refl|]. exists t, r. split; [reflexivity|]. unfold about. cbn. repeat split. exact E.
    + apply suffix_refl.
Qed.

Lemma pinterp_loop_about : forall types f ts root path log log' res,
  pinterp_loop types f ts root path log = (log', res) ->
  exists new, log' = log ++ new /\ Forall (fun r => exists t, In t ts /\ about r t) new.
Proof.
  intros types f. induction f as [|f IH]; intros ts root path log log' res H.
  - injection H as E _. exists []. rewrite app_nil_r. split; [symmetry; exact E|constructor].
  - cbn [pinterp_loop] in H. assert (HS := pstmt_sound types ts root path).
    assert (HN : forall ts1 root1 path1 log1, suffix ts1 ts ->
      (match padvance ts1 with
        | Ok (true, ts') => pinterp_loop types f ts' root1 path1 log1
        | Ok (false, ts') => (log1, pfinish ts' root1 path1)
        | _ => (log1, PIUB)
        end) = (log', res) ->
      exists new, log' = log1 ++ new /\ Forall (fun r => exists t, In t ts /\ about r t) new).
    { intros ts1 root1 path1 log1 Hs Hm. destruct (padvance ts1) as [[b ts2]| |] eqn:E.
      - destruct b.
        + destruct (IH _ _ _ _ _ _ Hm) as [new [E1 E2]]. exists new. split; [exact E1|].
          eapply Forall_impl; [|exact E2]. intros r [t [T1 T2]]. exists t. split; [|exact T2].
          eapply suffix_In; [|exact T1]. eapply suffix_trans; [eapply padvance_suffix; exact E|exact Hs].
        + injection Hm as E1 _. exists []. rewrite app_nil_r. split; [symmetry; exact E1|constructor].
      - injection Hm as E1 _. exists []. rewrite app_nil_r. split; [symmetry; exact E1|constructor].
      - injection Hm as E1 _. exists []. rewrite app_nil_r. split; [symmetry; exact E1|constructor]. }
    destruct (pstmt types ts root path) as [ts1 root1 path1|r ts1 root1 path1|]; cbn [sound_at] in HS.
    + eapply HN; [exact HS|exact H].
    + destruct HS as [Hs (t & r' & Et & Ha)].
      assert (Ht : In t ts) by (eapply suffix_In; [exact Hs|rewrite Et; left; reflexivity]).
      assert (Hr : Forall (fun r => exists t, In t ts /\ about r t) [r]) by (constructor; [exists t; auto|constructor]).
      destruct (padvance_to ts1) as [ts2| |] eqn:Ea.
      * destruct (HN ts2 root1 path1 (log ++ [r])) as [new [E1 E2]].
        { eapply suffix_trans; [eapply padvance_to_suffix; exact Ea|exact Hs]. }
        { exact H. }
        exists ([r] ++ new). rewrite app_assoc. split; [exact E1|]. apply Forall_app. split; assumption.
      * injection H as E _. exists [r]. split; [symmetry; exact E|exact Hr].
      * injection H as E _. exists [r]. split; [symmetry; exact E|exact Hr].
    + injection H as E _. exists []. rewrite app_nil_r. split; [symmetry; exact E|constructor].
Qed.
