From Verif Require Import Base ConfigModel LexSpec LexProofs InterpSpec InterpProofs ConfigProofs PosModel PosSpec PosProofs PosProofs2 PosProofs3.

(** * A recogniser of the beginnings of valid scripts *)
Inductive rstate : Type :=
| QStart | QName | QEq | QVal | QType | QBName | QLPar | QSec | QRPar.

Definition rstep (q : rstate * nat) (k : ttype) : option (rstate * nat) :=
  let (s, n) := q in
  match s, k with
  | QStart, TName => Some (QName, n)
  | QStart, TBlockType => Some (QType, n)
  | QStart, TBlockEnd => match n with O => None | S m => Some (QStart, m) end
  | QName, TEquals => Some (QEq, n)
  | QEq, TValue => Some (QVal, n)
  | QVal, TValue => Some (QVal, n)
  | QVal, TEndStatement => Some (QStart, n)
  | QType, TBlockName => Some (QBName, n)
  | QBName, TLPar => Some (QLPar, n)
  | QBName, TBlockStart => Some (QStart, S n)
  | QLPar, TName => Some (QSec, n)
  | QSec, TRPar => Some (QRPar, n)
  | QRPar, TBlockStart => Some (QStart, S n)
  | _, _ => None
  end.

Fixpoint rrun (q : rstate * nat) (ts : list token) : option (rstate * nat) :=
  match ts with
  | [] => Some q
  | t :: r => match rstep q (ttyp t) with None => None | Some q' => rrun q' r end
  end.

Lemma rrun_app : forall a b q, rrun q (a ++ b) = match rrun q a with None => None | Some q' => rrun q' b end.
Proof.
  induction a as [|t a IH]; intros b q; [reflexivity|]. cbn [app rrun].
  destruct (rstep q (ttyp t)) as [q'|]; [apply IH|reflexivity].
Qed.

Lemma rrun_values : forall vs n, rrun (QVal, n) (map (mkTok TValue) vs) = Some (QVal, n).
Proof. induction vs as [|v vs IH]; intro n; [reflexivity|]. cbn [map rrun rstep ttyp]. apply IH. Qed.

Lemma rrun_sec : forall st sec o n, sec_tokens st sec ->
  rrun (QBName, n) (st ++ [mkTok TBlockStart o]) = Some (QStart, S n).
Proof. intros st sec o n H. destruct H; reflexivity. Qed.

Lemma derives_rrun : forall ts items, Derives ts items -> forall n, rrun (QStart, n) ts = Some (QStart, n).
Proof.
  intros ts items H. induction H as [|nm e v vs s rest items H IH|t nm st sec o c body bi rest items Hs Hb IHb Hr IHr]; intro n.
  - reflexivity.
  - cbn [map app rrun rstep ttyp]. rewrite rrun_app, rrun_values. cbn [rrun rstep ttyp]. apply IH.
  - cbn [rrun rstep ttyp].
    replace (st ++ mkTok TBlockStart o :: body ++ mkTok TBlockEnd c :: rest)
      with ((st ++ [mkTok TBlockStart o]) ++ body ++ mkTok TBlockEnd c :: rest)
      by (rewrite <- app_assoc; reflexivity).
    rewrite rrun_app, (rrun_sec _ _ _ _ Hs), rrun_app, IHb. cbn [rrun rstep ttyp]. apply IHr.
Qed.

Lemma derives_app : forall a ia, Derives a ia -> forall b ib, Derives b ib -> Derives (a ++ b) (ia ++ ib).
Proof.
  intros a ia H. induction H as [|nm e v vs s rest items H IH|t nm st sec o c body bi rest items Hs Hb IHb Hr IHr]; intros b ib Hb'.
  - exact Hb'.
  - cbn [app map]. rewrite <- app_assoc. cbn [app]. apply (D_set nm e v vs s). apply IH, Hb'.
  - cbn [app]. rewrite <- app_assoc. cbn [app]. rewrite <- app_assoc. cbn [app].
    apply D_blk; [exact Hs|exact Hb|]. apply IHr, Hb'.
Qed.

(** Open blocks: what has been read is [n] block heads, each followed by complete items. *)
Inductive Stk : nat -> list token -> Prop :=
| Stk_0 : forall b i, Derives b i -> Stk 0 b
| Stk_S : forall n a t nm st sec o b i, Stk n a -> sec_tokens st sec -> Derives b i ->
    Stk (S n) (a ++ (mkTok TBlockType t :: mkTok TBlockName nm :: st ++ [mkTok TBlockStart o]) ++ b).

Lemma Stk_more : forall n a c i, Stk n a -> Derives c i -> Stk n (a ++ c).
Proof.
  intros n a c i H Hc. destruct H as [b j Hb|n a t nm st sec o b j Ha Hs Hb].
  - eapply Stk_0. eapply derives_app; eassumption.
  - rewrite <- !app_assoc. eapply Stk_S; [exact Ha|exact Hs|]. eapply derives_app; eassumption.
Qed.

Lemma Stk_close : forall n a c, Stk (S n) a -> Stk n (a ++ [mkTok TBlockEnd c]).
Proof.
  intros n a c H. inversion H as [|m a' t nm st sec o b j Ha Hs Hb E1 E2]; subst.
  rewrite <- app_assoc. eapply Stk_more; [exact Ha|].
  rewrite <- app_assoc, <- !app_comm_cons, <- app_assoc. cbn [app].
  eapply D_blk; [exact Hs|exact Hb|apply D_nil].
Qed.

Lemma Stk_complete : forall n a, Stk n a -> forall c i, Derives c i ->
  exists rest items, Derives (a ++ c ++ rest) items.
Proof.
  intro n. induction n as [|n IH]; intros a H c i Hc.
  - inversion H as [b j Hb E1 E2|]; subst. exists []. eexists. rewrite app_nil_r. eapply derives_app; eassumption.
  - assert (H2 := Stk_close n (a ++ c) [] (Stk_more _ _ _ _ H Hc)).
    destruct (IH _ H2 [] [] D_nil) as [rest [items HD]]. cbn [app] in HD.
    exists (mkTok TBlockEnd [] :: rest), items. rewrite <- !app_assoc in HD. exact HD.
Qed.

(** Unfinished statements. *)
Inductive Part : rstate -> list token -> Prop :=
| Pt_start : Part QStart []
| Pt_name : forall x, Part QName [mkTok TName x]
| Pt_eq : forall x e, Part QEq [mkTok TName x; mkTok TEquals e]
| Pt_val : forall x e v vs, Part QVal (mkTok TName x :: mkTok TEquals e :: map (mkTok TValue) (v :: vs))
| Pt_type : forall t, Part QType [mkTok TBlockType t]
| Pt_bname : forall t n, Part QBName [mkTok TBlockType t; mkTok TBlockName n]
| Pt_lpar : forall t n a, Part QLPar [mkTok TBlockType t; mkTok TBlockName n; mkTok TLPar a]
| Pt_sec : forall t n a s, Part QSec [mkTok TBlockType t; mkTok TBlockName n; mkTok TLPar a; mkTok TName s]
| Pt_rpar : forall t n a s b,
    Part QRPar [mkTok TBlockType t; mkTok TBlockName n; mkTok TLPar a; mkTok TName s; mkTok TRPar b].

Lemma part_complete : forall q p, Part q p -> exists c items, Derives (p ++ c) items.
Proof.
  assert (HB : forall t n st sec, sec_tokens st sec ->
    Derives (mkTok TBlockType t :: mkTok TBlockName n :: st ++ [mkTok TBlockStart []] ++ [] ++ [mkTok TBlockEnd []]) [IBlk t n sec []]).
  { intros t n st sec Hs. apply (D_blk t n st sec [] [] [] [] [] []); [exact Hs|apply D_nil|apply D_nil]. }
  assert (HS : forall x e v vs, Derives (mkTok TName x :: mkTok TEquals e :: map (mkTok TValue) (v :: vs) ++ [mkTok TEndStatement []]) [ISet x (v :: vs)]).
  { intros x e v vs. apply (D_set x e v vs [] [] []). apply D_nil. }
  intros q p H. destruct H.
  - exists [], []. apply D_nil.
  - eexists [_; _; _], _. apply (HS x [] [] []).
  - eexists [_; _], _. apply (HS x e [] []).
  - eexists [_], _. cbn [app]. apply (HS x e v vs).
  - eexists [_; _; _], _. apply (HB t [] [] [] sec_none).
  - eexists [_; _], _. apply (HB t n [] [] sec_none).
  - eexists [_; _; _; _], _. apply (HB t n _ _ (sec_some a [] [])).
  - eexists [_; _; _], _. apply (HB t n _ _ (sec_some a [] s)).
  - eexists [_; _], _. apply (HB t n _ _ (sec_some a b s)).
Qed.

Definition Read (q : rstate * nat) (ts : list token) : Prop :=
  exists a p, ts = a ++ p /\ Stk (snd q) a /\ Part (fst q) p.

Lemma tok_eta : forall t k, ttyp t = k -> t = mkTok k (tval t).
Proof. intros [k' v] k H. cbn in *. rewrite H. reflexivity. Qed.

Lemma read_step : forall s n ts t q', Read (s, n) ts -> rstep (s, n) (ttyp t) = Some q' -> Read q' (ts ++ [t]).
Proof.
  intros s n ts t q' (a & p & E & HS & HP) H. cbn [fst snd] in *. rewrite E. clear E.
  destruct t as [k v]. cbn [ttyp] in H.
  destruct HP as [|x|x e|x e v0 vs|t|t nm|t nm l|t nm l sc|t nm l sc r]; destruct k; cbn [rstep] in H; try discriminate.
  - injection H as <-. exists a, [mkTok TName v]. rewrite app_nil_r. repeat split; [exact HS|constructor].
  - injection H as <-. exists a, [mkTok TBlockType v]. rewrite app_nil_r. repeat split; [exact HS|constructor].
  - destruct n as [|m]; [discriminate|]. injection H as <-.
    exists (a ++ [mkTok TBlockEnd v]), []. rewrite !app_nil_r. repeat split; [|constructor]. cbn [snd]. apply Stk_close, HS.
  - injection H as <-. exists a, [mkTok TName x; mkTok TEquals v]. rewrite <- app_assoc. repeat split; [exact HS|constructor].
  - injection H as <-. exists a, (mkTok TName x :: mkTok TEquals e :: map (mkTok TValue) [v]).
    rewrite <- app_assoc. repeat split; [exact HS|constructor].
  - injection H as <-. exists a, (mkTok TName x :: mkTok TEquals e :: map (mkTok TValue) (v0 :: vs ++ [v])).
    rewrite <- app_assoc. split; [|split; [exact HS|constructor]].
    rewrite <- !app_comm_cons. cbn [map]. rewrite map_app. reflexivity.
  - injection H as <-. exists (a ++ (mkTok TName x :: mkTok TEquals e :: map (mkTok TValue) (v0 :: vs) ++ [mkTok TEndStatement v])), [].
    rewrite app_nil_r. split; [rewrite <- app_assoc; reflexivity|]. split; [|constructor]. cbn [snd].
    eapply Stk_more; [exact HS|]. apply (D_set x e v0 vs v [] []). apply D_nil.
  - injection H as <-. exists a, [mkTok TBlockType t; mkTok TBlockName v]. rewrite <- app_assoc. repeat split; [exact HS|constructor].
  - injection H as <-. exists a, [mkTok TBlockType t; mkTok TBlockName nm; mkTok TLPar v].
    rewrite <- app_assoc. repeat split; [exact HS|constructor].
  - injection H as <-. exists (a ++ (mkTok TBlockType t :: mkTok TBlockName nm :: [] ++ [mkTok TBlockStart v]) ++ []), [].
    rewrite !app_nil_r. split; [rewrite <- app_assoc; reflexivity|]. split; [|constructor]. cbn [snd].
    assert (Z := Stk_S n a t nm [] [] v [] [] HS sec_none D_nil). rewrite app_nil_r in Z. exact Z.
  - injection H as <-. exists a, [mkTok TBlockType t; mkTok TBlockName nm; mkTok TLPar l; mkTok TName v].
    rewrite <- app_assoc. repeat split; [exact HS|constructor].
  - injection H as <-. exists a, [mkTok TBlockType t; mkTok TBlockName nm; mkTok TLPar l; mkTok TName sc; mkTok TRPar v].
    rewrite <- app_assoc. repeat split; [exact HS|constructor].
  - injection H as <-.
    assert (Z := Stk_S n a t nm _ _ v [] [] HS (sec_some l r sc) D_nil). rewrite app_nil_r in Z.
    eexists _, []. rewrite app_nil_r. split; [|split; [exact Z|constructor]]. rewrite <- app_assoc. reflexivity.
Qed.

Lemma rrun_read : forall ts q, rrun (QStart, 0) ts = Some q -> Read q ts.
Proof.
  intro ts. induction ts as [|t ts IH] using rev_ind; intros q H.
  - injection H as <-. exists [], []. split; [reflexivity|]. split; [eapply Stk_0, D_nil|constructor].
  - rewrite rrun_app in H. destruct (rrun (QStart, 0) ts) as [[s n]|] eqn:E; [|discriminate].
    cbn [rrun] in H. destruct (rstep (s, n) (ttyp t)) as [q'|] eqn:E2; [|discriminate]. injection H as <-.
    eapply read_step; [apply IH; reflexivity|exact E2].
Qed.

Lemma viable_rrun : forall ts, viable ts <-> exists q, rrun (QStart, 0) ts = Some q.
Proof.
  intro ts. split.
  - intros (rest & items & H). apply (derives_rrun _ _) with (n := 0) in H. rewrite rrun_app in H.
    destruct (rrun (QStart, 0) ts) as [q|]; [exists q; reflexivity|discriminate].
  - intros [[s n] H]. destruct (rrun_read _ _ H) as (a & p & E & HS & HP). cbn [fst snd] in *.
    destruct (part_complete _ _ HP) as (c & it & HD).
    destruct (Stk_complete _ _ HS _ _ HD) as (rest & items & H2).
    exists (c ++ rest), items. rewrite E. rewrite <- !app_assoc in *. exact H2.
Qed.

Lemma valid_rrun : forall ts, valid ts <-> rrun (QStart, 0) ts = Some (QStart, 0).
Proof.
  intro ts. split.
  - intros (items & H). apply (derives_rrun _ _ H).
  - intro H. destruct (rrun_read _ _ H) as (a & p & E & HS & HP). cbn [fst snd] in *.
    inversion HP; subst. rewrite app_nil_r. inversion HS as [b j Hb E1 E2|]; subst. exists j. exact Hb.
Qed.

(** * What a statement consumes *)
Definition stream (ts : list ptok) : Prop :=
  exists b e, ts = b ++ [e] /\ no_eof (erase_toks b) /\ ttyp (pt e) = TEOF.

Lemma stream_next : forall t r, stream (t :: r) -> ttyp (pt t) <> TEOF -> exists x r', r = x :: r' /\ stream r.
Proof.
  intros t r (b & e & E & Hb & He) Ht. destruct b as [|y b].
  - injection E as E1 E2. subst. contradiction.
  - injection E as E1 E2. destruct r as [|x r'].
    + destruct b; discriminate.
    + exists x, r'. split; [reflexivity|]. exists b, e. split; [exact E2|]. split; [|exact He].
      intros z Hz. apply Hb. right. exact Hz.
Qed.

Lemma stream_head : forall t r, stream (t :: r) -> ttyp (pt t) = TEOF -> r = [].
Proof.
  intros t r (b & e & E & Hb & He) Ht. destruct b as [|y b].
  - injection E as E1 E2. exact E2.
  - injection E as E1 E2. subst y. exfalso. apply (Hb (pt t)); [left; reflexivity|exact Ht].
Qed.

Lemma pexpect_cases : forall ty t x r root path k, ttyp (pt t) <> TEOF -> ty <> TEOF ->
  pexpect ty (t :: x :: r) root path k =
  if ttype_eqb (ttyp (pt x)) ty then k (x :: r)
  else PSExn (at_token x (Expected ty (ttyp (pt x)))) (x :: r) root path.
Proof.
  intros ty t x r root path k Ht Hty. unfold pexpect, padvance.
  destruct (ttype_eqb (ttyp (pt t)) TEOF) eqn:E; [apply ttype_eqb_eq in E; contradiction|].
  destruct (ttype_eqb (ttyp (pt x)) ty) eqn:E2.
  - apply ttype_eqb_eq in E2. destruct (ttype_eqb (ttyp (pt x)) TEOF) eqn:E3.
    + apply ttype_eqb_eq in E3. congruence.
    + reflexivity.
  - rewrite andb_false_r. reflexivity.
Qed.

Definition stmt_says (ts : list ptok) (n : nat) (r : psres) : Prop :=
  match r with
  | PSOk ts' root' path' => exists c t r', ts' = t :: r' /\ ts = c ++ t :: r' /\
      rrun (QStart, n) (erase_toks (c ++ [t])) = Some (QStart, length path') /\ get_at path' root' <> None
  | PSExn rep ts' root' path' => exists c x r' s, ts' = x :: r' /\ ts = c ++ x :: r' /\ about rep x /\
      rrun (QStart, n) (erase_toks c) = Some (s, n) /\ rstep (s, n) (ttyp (pt x)) = None /\ (s = QStart -> c = [])
  | PSUB => False
  end.

Lemma about_at : forall x ty, about (at_token x (Expected ty (ttyp (pt x)))) x.
Proof. intros. repeat split. Qed.

Lemma ttype_neq : forall a b, ttype_eqb a b = false -> a <> b.
Proof. intros a b H E. rewrite E, ttype_eqb_refl in H. discriminate. Qed.

(** Values. *)
Lemma pcollect_run : forall r t acc, stream (t :: r) -> ttyp (pt t) = TValue ->
  exists c t' x r' vals, pcollect (t :: r) acc = Ok (t' :: x :: r', vals) /\ t :: r = c ++ t' :: x :: r' /\
    stream (x :: r') /\ ttyp (pt t') = TValue /\ ttyp (pt x) <> TValue /\
    (forall n, rrun (QVal, n) (erase_toks (tl (c ++ [t']))) = Some (QVal, n)).
Proof.
  induction r as [|x r IH]; intros t acc Hs Ht.
  - destruct (stream_next _ _ Hs) as (x & r' & E & _); [rewrite Ht; discriminate|discriminate].
  - destruct (stream_next _ _ Hs) as (x' & r' & E & Hs'); [rewrite Ht; discriminate|].
    cbn [pcollect]. rewrite Ht. cbn [ttype_eqb].
    destruct (ttype_eqb (ttyp (pt x)) TValue) eqn:Ex.
    + apply ttype_eqb_eq in Ex. destruct (IH x (acc ++ [tval (pt x)]) Hs' Ex) as (c & t' & y & r'' & vals & A & B & C & D & F & G).
      exists (t :: c), t', y, r'', vals. split; [exact A|]. split; [rewrite B; reflexivity|].
      split; [exact C|]. split; [exact D|]. split; [exact F|].
      intro n. cbn [app tl]. specialize (G n). destruct c as [|z c]; cbn [app tl] in *.
      * injection B as B1 B2. subst t'. cbn [erase_toks map rrun]. rewrite Ex. reflexivity.
      * injection B as B1 B2. subst z. rewrite erase_cons. cbn [rrun]. rewrite Ex. cbn [rstep]. exact G.
    + exists [], t, x, r, acc. split; [reflexivity|]. split; [reflexivity|]. split; [exact Hs'|].
      split; [exact Ht|]. split; [apply ttype_neq, Ex|]. intro n. reflexivity.
Qed.

Ltac noteof H := let Hc := fresh in intro Hc; rewrite Hc in H; discriminate H.

Lemma setting_run : forall t r root path, stream (t :: r) -> ttyp (pt t) = TName -> get_at path root <> None ->
  stmt_says (t :: r) (length path) (pstmt_setting (t :: r) root path).
Proof.
  intros t r root path Hs Ht Hg. unfold pstmt_setting.
  destruct (stream_next _ _ Hs) as (x1 & r1 & E1 & Hs1); [noteof Ht|]. subst r.
  rewrite pexpect_cases; [|noteof Ht|discriminate].
  destruct (ttype_eqb (ttyp (pt x1)) TEquals) eqn:K1.
  2:{ exists [t], x1, r1, QName. repeat split; try reflexivity.
      - cbn [erase_toks map rrun]. rewrite Ht. reflexivity.
      - apply ttype_neq in K1. destruct (ttyp (pt x1)); try reflexivity; contradiction.
      - discriminate. }
  apply ttype_eqb_eq in K1.
  destruct (stream_next _ _ Hs1) as (x2 & r2 & E2 & Hs2); [noteof K1|]. subst r1.
  rewrite pexpect_cases; [|noteof K1|discriminate].
  destruct (ttype_eqb (ttyp (pt x2)) TValue) eqn:K2.
  2:{ exists [t; x1], x2, r2, QEq. repeat split; try reflexivity.
      - cbn [erase_toks map rrun]. rewrite Ht. cbn [rstep]. rewrite K1. reflexivity.
      - apply ttype_neq in K2. destruct (ttyp (pt x2)); try reflexivity; contradiction.
      - discriminate. }
  apply ttype_eqb_eq in K2.
  destruct (pcollect_run r2 x2 [pcur (x2 :: r2)] Hs2 K2) as (c & t' & y & r' & vals & A & B & C & D & F & G).
  rewrite A. rewrite pexpect_cases; [|noteof D|discriminate].
  assert (RV : rrun (QStart, length path) (erase_toks (t :: x1 :: c ++ [t'])) = Some (QVal, length path)).
  { rewrite !erase_cons. cbn [rrun]. rewrite Ht. cbn [rstep]. rewrite K1. cbn [rstep].
    specialize (G (length path)). destruct c as [|z c]; cbn [app tl] in *.
    - cbn [erase_toks map rrun]. rewrite D. reflexivity.
    - injection B as B1 B2. subst z. rewrite erase_cons. cbn [rrun]. rewrite K2. cbn [rstep]. exact G. }
  destruct (ttype_eqb (ttyp (pt y)) TEndStatement) eqn:K3.
  - apply ttype_eqb_eq in K3. exists (t :: x1 :: c ++ [t']), y, r'. split; [reflexivity|]. split.
    { rewrite B. cbn [app]. rewrite <- app_assoc. reflexivity. }
    split.
    { unfold erase_toks in *. rewrite map_app, rrun_app, RV. cbn [map rrun]. rewrite K3. reflexivity. }
    rewrite get_upd_at. destruct (get_at path root); [discriminate|contradiction].
  - exists (t :: x1 :: c ++ [t']), y, r', QVal. split; [reflexivity|]. split.
    { rewrite B. cbn [app]. rewrite <- app_assoc. reflexivity. }
    split; [apply about_at|]. split; [exact RV|]. split; [|discriminate].
    apply ttype_neq in K3. destruct (ttyp (pt y)); try reflexivity; contradiction.
Qed.

Lemma add_sub_block_get : forall b ty n s b' i, add_sub_block b ty n s = (b', i) -> nth_error (cb_subs b') i <> None.
Proof.
  intros [t bn bs sets subs] ty n s b' i H. cbn [add_sub_block] in H.
  assert (F := find_sub_spec subs ty n). destruct (find_sub subs ty n) as [j|].
  - injection H as <- <-. cbn [cb_subs]. destruct F as (c & Hc & _). rewrite Hc. discriminate.
  - injection H as <- <-. cbn [cb_subs]. rewrite nth_error_app2, Nat.sub_diag by lia. discriminate.
Qed.

Lemma open_run : forall bt n s c t x r root path q, ttyp (pt t) <> TEOF -> get_at path root <> None ->
  rrun (QStart, length path) (erase_toks (c ++ [t])) = Some (q, length path) ->
  q = QRPar \/ (q = QBName /\ ttyp (pt x) <> TLPar) ->
  stmt_says (c ++ t :: x :: r) (length path) (popen_block bt n s (t :: x :: r) root path).
Proof.
  intros bt n s c t x r root path q Ht Hg Hq Hq2. unfold popen_block.
  rewrite pexpect_cases; [|exact Ht|discriminate].
  destruct (ttype_eqb (ttyp (pt x)) TBlockStart) eqn:K.
  - apply ttype_eqb_eq in K. destruct (get_at path root) as [b|] eqn:Eg; [|contradiction].
    destruct (add_sub_block b bt n s) as [b' i] eqn:Ea.
    exists (c ++ [t]), x, r. split; [reflexivity|]. split; [rewrite <- app_assoc; reflexivity|]. split.
    + unfold erase_toks in *. rewrite map_app, rrun_app, Hq. cbn [map rrun]. rewrite K.
      rewrite app_length. cbn [length]. rewrite Nat.add_1_r. destruct Hq2 as [->|[-> _]]; reflexivity.
    + rewrite get_at_snoc, get_upd_at, Eg. eapply add_sub_block_get. exact Ea.
  - exists (c ++ [t]), x, r, q. split; [reflexivity|]. split; [rewrite <- app_assoc; reflexivity|].
    split; [apply about_at|]. split; [exact Hq|]. apply ttype_neq in K. split.
    + destruct Hq2 as [->|[-> Hn]]; destruct (ttyp (pt x)); try reflexivity; contradiction.
    + destruct Hq2 as [->|[-> _]]; discriminate.
Qed.

Lemma block_run : forall types t r root path, stream (t :: r) -> ttyp (pt t) = TBlockType -> get_at path root <> None ->
  stmt_says (t :: r) (length path) (pstmt_block types (t :: r) root path).
Proof.
  intros types t r root path Hs Ht Hg. unfold pstmt_block.
  destruct (stream_next _ _ Hs) as (x1 & r1 & E1 & Hs1); [noteof Ht|]. subst r.
  rewrite pexpect_cases; [|noteof Ht|discriminate].
  destruct (ttype_eqb (ttyp (pt x1)) TBlockName) eqn:K1.
  2:{ exists [t], x1, r1, QType. repeat split; try reflexivity.
      - cbn [erase_toks map rrun]. rewrite Ht. reflexivity.
      - apply ttype_neq in K1. destruct (ttyp (pt x1)); try reflexivity; contradiction.
      - discriminate. }
  apply ttype_eqb_eq in K1.
  destruct (stream_next _ _ Hs1) as (x2 & r2 & E2 & Hs2); [noteof K1|]. subst r1.
  cbn [ptokent_n]. rewrite K1. cbn [ttype_eqb].
  assert (R1 : rrun (QStart, length path) (erase_toks [t; x1]) = Some (QBName, length path)).
  { cbn [erase_toks map rrun]. rewrite Ht. cbn [rstep]. rewrite K1. reflexivity. }
  destruct (ttype_eqb (ttyp (pt x2)) TLPar) eqn:K2.
  - apply ttype_eqb_eq in K2.
    assert (EA : padvance (x1 :: x2 :: r2) = Ok (true, x2 :: r2)).
    { unfold padvance. rewrite K1, K2. reflexivity. }
    rewrite EA.
    destruct (stream_next _ _ Hs2) as (x3 & r3 & E3 & Hs3); [noteof K2|]. subst r2.
    rewrite pexpect_cases; [|noteof K2|discriminate].
    assert (R2 : rrun (QStart, length path) (erase_toks [t; x1; x2]) = Some (QLPar, length path)).
    { cbn [erase_toks map rrun]. rewrite Ht. cbn [rstep]. rewrite K1. cbn [rstep]. rewrite K2. reflexivity. }
    destruct (ttype_eqb (ttyp (pt x3)) TName) eqn:K3.
    2:{ exists [t; x1; x2], x3, r3, QLPar. split; [reflexivity|]. split; [reflexivity|]. split; [apply about_at|].
        split; [exact R2|]. split; [|discriminate].
        apply ttype_neq in K3. destruct (ttyp (pt x3)); try reflexivity; contradiction. }
    apply ttype_eqb_eq in K3.
    destruct (stream_next _ _ Hs3) as (x4 & r4 & E4 & Hs4); [noteof K3|]. subst r3.
    rewrite pexpect_cases; [|noteof K3|discriminate].
    assert (R3 : rrun (QStart, length path) (erase_toks [t; x1; x2; x3]) = Some (QSec, length path)).
    { cbn [erase_toks map rrun]. rewrite Ht. cbn [rstep]. rewrite K1. cbn [rstep]. rewrite K2. cbn [rstep]. rewrite K3. reflexivity. }
    destruct (ttype_eqb (ttyp (pt x4)) TRPar) eqn:K4.
    2:{ exists [t; x1; x2; x3], x4, r4, QSec. split; [reflexivity|]. split; [reflexivity|]. split; [apply about_at|].
        split; [exact R3|]. split; [|discriminate].
        apply ttype_neq in K4. destruct (ttyp (pt x4)); try reflexivity; contradiction. }
    apply ttype_eqb_eq in K4.
    destruct (stream_next _ _ Hs4) as (x5 & r5 & E5 & Hs5); [noteof K4|]. subst r4.
    apply (open_run _ _ _ [t; x1; x2; x3] x4 x5 r5 root path QRPar).
    + noteof K4.
    + exact Hg.
    + cbn [app erase_toks map rrun]. rewrite Ht. cbn [rstep]. rewrite K1. cbn [rstep]. rewrite K2. cbn [rstep].
      rewrite K3. cbn [rstep]. rewrite K4. reflexivity.
    + left. reflexivity.
  - apply (open_run _ _ _ [t] x1 x2 r2 root path QBName).
    + noteof K1.
    + exact Hg.
    + exact R1.
    + right. split; [reflexivity|]. apply ttype_neq, K2.
Qed.

Lemma get_at_removelast : forall path root, get_at path root <> None -> get_at (removelast path) root <> None.
Proof.
  intros path root. induction path as [|i p IH] using rev_ind; intro H; [exact H|].
  rewrite removelast_last. rewrite get_at_snoc in H. intro Hc. rewrite Hc in H. contradiction.
Qed.

Lemma stmt_run : forall types t r root path, stream (t :: r) -> get_at path root <> None ->
  stmt_says (t :: r) (length path) (pstmt types (t :: r) root path).
Proof.
  intros types t r root path Hs Hg. unfold pstmt.
  assert (HB : forall ty, ttyp (pt t) = ty -> ty <> TName -> ty <> TBlockType -> ty <> TBlockEnd ->
    stmt_says (t :: r) (length path) (PSExn (at_token t (BadStart ty)) (t :: r) root path)).
  { intros ty E N1 N2 N3. exists [], t, r, QStart. split; [reflexivity|]. split; [reflexivity|]. split.
    - unfold about. cbn. repeat split. symmetry. exact E.
    - split; [reflexivity|]. split; [|reflexivity]. rewrite E. destruct ty; try reflexivity; contradiction. }
  destruct (ttyp (pt t)) eqn:E; try (apply HB; [reflexivity|discriminate|discriminate|discriminate]).
  - apply setting_run; assumption.
  - apply block_run; assumption.
  - destruct path as [|i path].
    + exists [], t, r, QStart. split; [reflexivity|]. split; [reflexivity|]. split.
      * unfold about. cbn. repeat split. exact E.
      * split; [reflexivity|]. split; [rewrite E; reflexivity|reflexivity].
    + exists [], t, r. split; [reflexivity|]. split; [reflexivity|]. split.
      * cbn [app erase_toks map rrun]. rewrite E. cbn [rstep].
        destruct path as [|j path] using rev_ind; [reflexivity|].
        rewrite app_comm_cons, removelast_last. cbn [length]. rewrite app_length. cbn [length].
        rewrite Nat.add_1_r. reflexivity.
      * apply get_at_removelast, Hg.
Qed.

Lemma padvance_cons : forall t x r, ttyp (pt t) <> TEOF ->
  padvance (t :: x :: r) = Ok (negb (ttype_eqb (ttyp (pt x)) TEOF), x :: r).
Proof.
  intros t x r H. unfold padvance.
  destruct (ttype_eqb (ttyp (pt t)) TEOF) eqn:E; [apply ttype_eqb_eq in E; contradiction|reflexivity].
Qed.

Lemma stream_app : forall c t r, stream (c ++ t :: r) -> stream (t :: r).
Proof.
  induction c as [|y c IH]; intros t r H; [exact H|].
  apply IH. cbn [app] in H. destruct (ttype_eqb (ttyp (pt y)) TEOF) eqn:E.
  - apply ttype_eqb_eq in E. apply stream_head in H; [|exact E]. destruct c; discriminate.
  - destruct (stream_next _ _ H) as (x & r' & E1 & H1); [apply ttype_neq, E|]. exact H1.
Qed.

Lemma loop_first : forall types f ts root path before, stream ts -> length ts <= f ->
  (forall t r, ts = t :: r -> ttyp (pt t) <> TEOF) -> get_at path root <> None ->
  rrun (QStart, 0) (erase_toks before) = Some (QStart, length path) ->
  let out := pinterp_loop types f ts root path [] in
  (exists r rest c x post q, fst out = r :: rest /\ ts = c ++ x :: post /\ about r x /\
     rrun (QStart, 0) (erase_toks (before ++ c)) = Some q /\ rstep q (ttyp (pt x)) = None /\
     (ttyp (pt x) = TEOF -> q <> (QStart, 0))) \/
  (fst out = [] /\ exists b e n, ts = b ++ [e] /\ ttyp (pt e) = TEOF /\
     rrun (QStart, 0) (erase_toks (before ++ b)) = Some (QStart, n) /\
     (n = 0 -> exists root', snd out = PIOk root') /\
     (n <> 0 -> snd out = PIThrow (pline e) (pcol e) (psrc e))).
Proof.
  intros types f. induction f as [|f IH]; intros ts root path before Hs Hf Hh Hg Hr.
  - destruct ts as [|t r]; [|cbn [length] in Hf; lia]. destruct Hs as (b & e & E & _). destruct b; discriminate.
  - destruct ts as [|t r]; [destruct Hs as (b & e & E & _); destruct b; discriminate|].
    cbv zeta. cbn [pinterp_loop]. assert (HS := stmt_run types t r root path Hs Hg).
    destruct (pstmt types (t :: r) root path) as [ts1 root1 path1|rep ts1 root1 path1|]; cbn [stmt_says] in HS.
    + destruct HS as (c & t1 & r1 & E1 & E2 & HR & Hg1). subst ts1.
      assert (Hr1 : rrun (QStart, 0) (erase_toks (before ++ c ++ [t1])) = Some (QStart, length path1)).
      { unfold erase_toks in *. rewrite map_app, rrun_app, Hr. exact HR. }
      assert (Hs1 : stream (t1 :: r1)) by (apply (stream_app c); rewrite <- E2; exact Hs).
      assert (Ht1 : ttyp (pt t1) <> TEOF).
      { intro Hc. unfold erase_toks in HR. rewrite map_app, rrun_app in HR.
        destruct (rrun (QStart, length path) (map pt c)) as [[s n]|]; [|discriminate].
        cbn [map rrun] in HR. rewrite Hc in HR. destruct s; discriminate. }
      destruct (stream_next _ _ Hs1 Ht1) as (x & r2 & Ex & Hs2). subst r1.
      rewrite padvance_cons by exact Ht1.
      destruct (ttype_eqb (ttyp (pt x)) TEOF) eqn:Kx; cbn [negb].
      * apply ttype_eqb_eq in Kx. assert (r2 = []) by (eapply stream_head; eassumption). subst r2.
        right. cbn [fst snd]. split; [reflexivity|]. exists (c ++ [t1]), x, (length path1).
        split; [rewrite E2, <- app_assoc; reflexivity|]. split; [exact Kx|]. split; [exact Hr1|].
        unfold pfinish. destruct path1 as [|i p1]; cbn [length].
        -- split; [intros _; exists root1; reflexivity|intro Hc; contradiction].
        -- split; [discriminate|reflexivity].
      * assert (HI := IH (x :: r2) root1 path1 (before ++ c ++ [t1]) Hs2).
        cbv zeta in HI. destruct HI as [HI|HI].
        -- assert (HL : length (t :: r) = length c + S (S (length r2))) by (rewrite E2, app_length; reflexivity).
           cbn [length] in *. lia.
        -- intros y r' E. injection E as <- _. apply ttype_neq, Kx.
        -- exact Hg1.
        -- exact Hr1.
        -- left. destruct HI as (rp & rest & c' & y & post & q & A & B & C & D & F & G).
           exists rp, rest, (c ++ t1 :: c'), y, post, q. split; [exact A|]. split.
           { rewrite E2, B. rewrite <- app_assoc. reflexivity. }
           split; [exact C|]. split; [|split; assumption].
           rewrite <- D. f_equal. rewrite <- !app_assoc. reflexivity.
        -- right. destruct HI as (A & b & e & n & B & C & D & F & G).
           split; [exact A|]. exists (c ++ t1 :: b), e, n. split.
           { rewrite E2, B. rewrite <- app_assoc. reflexivity. }
           split; [exact C|]. split; [|split; assumption].
           rewrite <- D. f_equal. rewrite <- !app_assoc. reflexivity.
    + left. destruct HS as (c & x & r' & s & E1 & E2 & Ha & HR & Hst & Hc). subst ts1.
      assert (HQ : exists rest, fst (match padvance_to (x :: r') with
          | Ok ts'' => match padvance ts'' with
                       | Ok (true, ts') => pinterp_loop types f ts' root1 path1 ([] ++ [rep])
                       | Ok (false, ts') => ([] ++ [rep], pfinish ts' root1 path1)
                       | _ => ([] ++ [rep], PIUB) end
          | _ => ([] ++ [rep], PIUB) end) = rep :: rest).
      { destruct (padvance_to (x :: r')) as [ts2| |]; try (exists []; reflexivity).
        destruct (padvance ts2) as [[b ts3]| |]; try (exists []; reflexivity).
        destruct b; [|exists []; reflexivity].
        destruct (pinterp_loop types f ts3 root1 path1 ([] ++ [rep])) as [lg rs] eqn:EL.
        destruct (pinterp_loop_about _ _ _ _ _ _ _ _ EL) as [new [En _]]. exists new. exact En. }
      destruct HQ as [rest HQ]. exists rep, rest, c, x, r', (s, length path).
      split; [exact HQ|]. split; [exact E2|]. split; [exact Ha|]. split.
      { unfold erase_toks in *. rewrite map_app, rrun_app, Hr. exact HR. }
      split; [exact Hst|]. intros He Hq. injection Hq as Hq1 Hq2. rewrite (Hc Hq1) in E2. cbn [app] in E2.
      injection E2 as E3 E4. subst x. apply (Hh t r eq_refl He).
    + contradiction.
Qed.

Lemma first_message : forall types ts e log res, no_eof (erase_toks ts) -> ttyp (pt e) = TEOF -> ts <> [] ->
  pinterpret types (ts ++ [e]) = (log, res) ->
  (exists r rest k t, log = r :: rest /\ nth_error (ts ++ [e]) k = Some t /\ about r t /\
     viable (erase_toks (firstn k ts)) /\
     (k < length ts -> ~ viable (erase_toks (firstn (S k) ts))) /\
     (k = length ts -> ~ valid (erase_toks ts))) \/
  (log = [] /\ valid (erase_toks ts) /\ exists root, res = PIOk root) \/
  (log = [] /\ viable (erase_toks ts) /\ ~ valid (erase_toks ts) /\ res = PIThrow (pline e) (pcol e) (psrc e)).
Proof.
  intros types ts e log res Hn He Hne H. unfold pinterpret in H.
  assert (Hs : stream (ts ++ [e])) by (exists ts, e; auto).
  assert (HL := loop_first types (S (length (ts ++ [e]))) (ts ++ [e]) root_block [] [] Hs ltac:(lia)).
  cbv zeta in HL. rewrite H in HL. cbn [fst snd app] in HL.
  destruct HL as [HL|HL].
  - intros t r E. destruct ts as [|t0 ts]; [contradiction|]. injection E as E1 _. subst t0.
    apply Hn. left. reflexivity.
  - discriminate.
  - reflexivity.
  - left. destruct HL as (r & rest & c & x & post & q & A & B & C & D & F & G).
    assert (Hk : length c <= length ts).
    { apply (f_equal (@length _)) in B. rewrite !app_length in B. cbn [length] in B. lia. }
    assert (Hc : firstn (length c) ts = c).
    { apply (f_equal (firstn (length c))) in B. rewrite firstn_app in B.
      replace (length c - length ts) with 0 in B by lia. rewrite firstn_O, app_nil_r in B.
      rewrite B, firstn_app, Nat.sub_diag, firstn_all. cbn [firstn]. apply app_nil_r. }
    exists r, rest, (length c), x. split; [exact A|]. split.
    { rewrite B, nth_error_app2, Nat.sub_diag by lia. reflexivity. }
    split; [exact C|]. rewrite Hc. split; [apply viable_rrun; exists q; exact D|]. split.
    + intro Hlt. assert (Hc' : firstn (S (length c)) ts = c ++ [x]).
      { apply (f_equal (firstn (S (length c)))) in B. rewrite firstn_app in B.
        replace (S (length c) - length ts) with 0 in B by lia. rewrite firstn_O, app_nil_r in B.
        rewrite B, firstn_app. replace (S (length c) - length c) with 1 by lia.
        rewrite firstn_all2 by lia. reflexivity. }
      rewrite Hc'. intro Hv. apply viable_rrun in Hv. destruct Hv as [q' Hv]. unfold erase_toks in *.
      rewrite map_app, rrun_app, D in Hv. cbn [map rrun] in Hv. rewrite F in Hv. discriminate.
    + intros Heq Hv. apply valid_rrun in Hv.
      assert (Hcc : c = ts) by (rewrite <- Hc, Heq, firstn_all; reflexivity). subst c.
      apply app_inv_head in B. injection B as B1 B2. subst x.
      rewrite D in Hv. injection Hv as Hv. apply (G He). exact Hv.
  - right. destruct HL as (A & b & e' & n & B & C & D & F & G).
    apply app_inj_tail in B. destruct B as [B1 B2]. subst b e'.
    destruct n as [|n].
    + left. split; [exact A|]. split; [apply valid_rrun, D|apply F; reflexivity].
    + right. split; [exact A|]. split; [apply viable_rrun; eexists; exact D|]. split.
      * intro Hv. apply valid_rrun in Hv. rewrite D in Hv. discriminate.
      * apply G. discriminate.
Qed.

Lemma layout_split : forall l k, k < length (layout_words l) -> exists l1 g e l2 w,
  l = l1 ++ (g, e) :: l2 /\ length (layout_words l1) = k /\ elem_word e = [w].
Proof.
  induction l as [|[g e] l IH]; intros k Hk; [cbn in Hk; lia|].
  unfold layout_words in Hk. cbn [flat_map snd] in Hk. fold (layout_words l) in Hk. rewrite app_length in Hk.
  assert (HW : elem_word e = [] \/ exists w, elem_word e = [w]).
  { destruct e as [c|s|[|c s]|n]; cbn [elem_word]; eauto. }
  destruct HW as [HW|[w HW]]; rewrite HW in Hk; cbn [length] in Hk.
  - destruct (IH k Hk) as (l1 & g' & e' & l2 & w & E & L & W).
    exists ((g, e) :: l1), g', e', l2, w. split; [rewrite E; reflexivity|]. split; [|exact W].
    unfold layout_words. cbn [flat_map snd]. rewrite HW. exact L.
  - destruct k as [|k].
    + exists [], g, e, l, w. repeat split. exact HW.
    + destruct (IH k) as (l1 & g' & e' & l2 & w' & E & L & W); [lia|].
      exists ((g, e) :: l1), g', e', l2, w'. split; [rewrite E; reflexivity|]. split; [|exact W].
      unfold layout_words. cbn [flat_map snd]. rewrite HW. cbn [app length]. f_equal. exact L.
Qed.

(** The first message about a text without includes. *)
Lemma first_message_text : forall types fs infile src d l tail,
  layout_ok l -> Forall gap_ok tail -> no_includes l -> layout_words l <> [] ->
  let kinds := classify types None (layout_words l) in
  exists log res,
    read_script types fs (S d) infile src (layout_text l ++ gaps_text tail) = RRead log res /\
    match log with
    | r :: _ =>
        (exists l1 g e l2 w, l = l1 ++ (g, e) :: l2 /\ elem_word e = [w] /\
           viable (firstn (length (layout_words l1)) kinds) /\
           ~ viable (firstn (S (length (layout_words l1))) kinds) /\
           rfile r = src /\
           rline r + quoted_newlines l1 =
             line_after (layout_text l1 ++ gaps_text g) + (if is_bare e && newline_follows l2 tail then 1 else 0) /\
           rcol r = col_after (flat_layout l1 ++ gaps_text g ++ token_end e l2 tail)) \/
        (viable kinds /\ ~ valid kinds /\ rfile r = src /\
           rline r = line_after (flat_layout l ++ gaps_text tail) /\
           rcol r = col_after (flat_layout l ++ gaps_text tail))
    | [] =>
        (valid kinds /\ exists root, res = PIOk root) \/
        (viable kinds /\ ~ valid kinds /\
         res = PIThrow (line_after (flat_layout l ++ gaps_text tail)) (col_after (flat_layout l ++ gaps_text tail)) src)
    end.
Proof.
  intros types fs infile src d l tail Hl Ht Hn Hw kinds.
  destruct (preads_words types fs src l [] tail [] Hn) as [out [H1 H2]]. cbn [app] in H1.
  change (last_kind (erase_toks [])) with (@None ttype) in H2. fold kinds in H2.
  destruct (plex_preads types fs src _ tail out Hl Ht H1) as [d0 [Hd0 H]].
  destruct (H d infile) as [pw E]; [rewrite (Hd0 Hn); lia|].
  set (e := place src (flat_layout l ++ gaps_text tail) eof_token) in *.
  assert (Hlen : length out = length (layout_words l)).
  { apply (f_equal (@length _)) in H2. unfold erase_toks in H2. rewrite map_length in H2. rewrite H2. unfold kinds.
    generalize (@None ttype). generalize (layout_words l).
    induction l0 as [|x ws IHw]; intro p; [reflexivity|]. cbn [classify length]. rewrite IHw. reflexivity. }
  destruct (pinterpret types (out ++ [e])) as [log res] eqn:EI.
  exists log, res. split.
  { unfold read_script. rewrite E, EI. reflexivity. }
  destruct (first_message types out e log res) as [A|[A|A]].
  - rewrite H2. apply classify_no_eof.
  - reflexivity.
  - intro Hc. apply Hw. rewrite Hc in Hlen. destruct (layout_words l); [reflexivity|discriminate].
  - exact EI.
  - destruct A as (r & rest & k & t & -> & Nt & (B1 & B2 & B3 & _) & V1 & V2 & V3).
    assert (Hk : k <= length out).
    { assert (Hs : nth_error (out ++ [e]) k <> None) by (rewrite Nt; discriminate).
      apply nth_error_Some in Hs. rewrite app_length in Hs. cbn [length] in Hs. lia. }
    assert (EF : forall j, erase_toks (firstn j out) = firstn j kinds).
    { intro j. unfold erase_toks in *. rewrite <- H2, firstn_map. reflexivity. }
    destruct (Nat.eq_dec k (length out)) as [Hke|Hke].
    + right. rewrite Hke in *. rewrite nth_error_app2, Nat.sub_diag in Nt by lia. injection Nt as <-.
      rewrite firstn_all, H2 in V1. split; [exact V1|]. split; [rewrite <- H2; apply V3; reflexivity|].
      rewrite B1, B2, B3. repeat split.
    + left. rewrite nth_error_app1 in Nt by lia.
      destruct (layout_split l k) as (l1 & g & el & l2 & w & El & Lk & W); [rewrite <- Hlen; lia|].
      exists l1, g, el, l2, w. split; [exact El|]. split; [exact W|]. rewrite Lk.
      rewrite EF in V1. split; [exact V1|]. split; [rewrite <- EF; apply V2; lia|].
      rewrite El in Hn, H1, Hl.
      destruct (preads_nth _ _ _ _ _ _ _ _ _ _ _ _ Hn W H1) as (t' & T1 & T2 & T3 & T4 & T5).
      cbn [length app Nat.add] in *. rewrite Lk, Nt in T1. injection T1 as <-.
      split; [rewrite B3; exact T3|]. split; [|rewrite B2; exact T5].
      rewrite B1, T4. apply token_line; assumption.
  - destruct A as (-> & V & R). left. rewrite <- H2. split; assumption.
  - destruct A as (-> & V & NV & R). right. rewrite <- H2. split; [exact V|]. split; [exact NV|]. exact R.
Qed.

Lemma messages_sources : forall types fs d infile src text log res,
  read_script types fs d infile src text = RRead log res ->
  Forall (fun r => rfile r = src) log /\ (forall l c f, res = PIThrow l c f -> f = src).
Proof.
  intros types fs d infile src text log res H. unfold read_script in H.
  destruct (plex types fs src d infile text) as [ts a b c|l c i n|] eqn:E; try discriminate.
  assert (HS := plex_src _ _ _ _ _ _ _ _ _ _ E). unfold from_src in HS. rewrite Forall_forall in HS.
  destruct (pinterpret types ts) as [lg rs] eqn:EI. injection H as <- <-. unfold pinterpret in EI.
  split.
  - destruct (pinterp_loop_about _ _ _ _ _ _ _ _ EI) as [new [En Hf]]. cbn [app] in En. subst new.
    eapply Forall_impl; [|exact Hf]. intros r [t [T1 (_ & _ & T2 & _)]]. rewrite T2. apply HS, T1.
  - assert (G : forall f ts' root path lg0 lg1 l c0 f0,
      pinterp_loop types f ts' root path lg0 = (lg1, PIThrow l c0 f0) -> suffix ts' ts -> f0 = src).
    { induction f as [|f IH]; intros ts' root path lg0 lg1 l c0 f0 HL Hsf; [discriminate|].
      cbn [pinterp_loop] in HL. assert (HS1 := pstmt_sound types ts' root path).
      assert (HN : forall ts1 root1 path1 log1, suffix ts1 ts' ->
        (match padvance ts1 with
          | Ok (true, ts') => pinterp_loop types f ts' root1 path1 log1
          | Ok (false, ts') => (log1, pfinish ts' root1 path1)
          | _ => (log1, PIUB)
          end) = (lg1, PIThrow l c0 f0) -> f0 = src).
      { intros ts1 root1 path1 log1 Hs1 Hm. destruct (padvance ts1) as [[bb ts2]| |] eqn:Ea; try discriminate.
        apply padvance_suffix in Ea. assert (Hs2 : suffix ts2 ts) by eauto using suffix_trans.
        destruct bb; [eapply IH; eassumption|]. injection Hm as _ Hm. unfold pfinish in Hm.
        destruct path1; [discriminate|]. destruct ts2 as [|t r]; [discriminate|]. injection Hm as _ _ Hm.
        rewrite <- Hm. apply HS. eapply suffix_In; [exact Hs2|left; reflexivity]. }
      destruct (pstmt types ts' root path) as [ts1 root1 path1|r ts1 root1 path1|]; cbn [sound_at] in HS1; try discriminate.
      - eapply HN; [exact HS1|exact HL].
      - destruct HS1 as [Hs1 _]. destruct (padvance_to ts1) as [ts2| |] eqn:Ea; try discriminate.
        eapply HN; [|exact HL]. eapply suffix_trans; [eapply padvance_to_suffix; exact Ea|exact Hs1]. }
    intros l c0 f0 Hr. rewrite Hr in EI. eapply G; [exact EI|apply suffix_refl].
Qed.
