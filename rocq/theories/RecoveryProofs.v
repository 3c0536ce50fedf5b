(** Error recovery of the script interpreter, and copies of configuration blocks. *)
From Verif Require Import Base ConfigModel LexSpec InterpSpec InterpProofs BlockSpec BlockProofs.
From Coq Require Import Lia.

(** * Recovery *)
(** Tokens at which no statement starts: everything but a setting name, a block type
    and a closing brace (and the end of the file). *)
Definition stray (t : token) : Prop :=
  ttyp t <> TName /\ ttyp t <> TBlockType /\ ttyp t <> TBlockEnd /\ ttyp t <> TEOF.
(** A token stream that is empty or starts with a name, a block type or '}'. *)
Definition at_start (ts : list token) : Prop :=
  match ts with [] => True | t :: _ => ttyp t = TName \/ ttyp t = TBlockType \/ ttyp t = TBlockEnd end.

(** The grammar of InterpSpec with stray tokens between statements, and settings that
    break off after their name.  The boolean tells whether there is any such error. *)
Inductive Recovers : list token -> list item -> bool -> Prop :=
| R_nil : Recovers [] [] false
| R_set : forall n e v vs s rest items b,
    Recovers rest items b ->
    Recovers (mkTok TName n :: mkTok TEquals e :: map (mkTok TValue) (v :: vs) ++ mkTok TEndStatement s :: rest)
             (ISet n (v :: vs) :: items) b
| R_blk : forall t n st sec o c body bi rest items b1 b2,
    sec_tokens st sec -> Recovers body bi b1 -> Recovers rest items b2 ->
    Recovers (mkTok TBlockType t :: mkTok TBlockName n :: st ++ mkTok TBlockStart o :: body ++ mkTok TBlockEnd c :: rest)
             (IBlk t n sec bi :: items) (b1 || b2)
| R_stray : forall x junk rest items b,
    stray x -> Forall stray junk -> at_start rest -> Recovers rest items b ->
    Recovers (x :: junk ++ rest) items true
| R_bad_set : forall n x junk rest items b,
    stray x -> ttyp x <> TEquals -> Forall stray junk -> at_start rest -> Recovers rest items b ->
    Recovers (mkTok TName n :: x :: junk ++ rest) items true.

Lemma stray_not_restart t : stray t -> is_restart (ttyp t) = false.
Proof. intros (A & B & C & _). destruct (ttyp t); try reflexivity; exfalso; auto. Qed.
Lemma ttype_neqb a b : a <> b -> ttype_eqb a b = false.
Proof. intro H. destruct (ttype_eqb a b) eqn:E; [apply ttype_eqb_eq in E; contradiction|reflexivity]. Qed.

Lemma skip_stray types f root path : forall junk x r0 rest, stray x -> Forall stray junk ->
  (is_restart (ttyp r0) = true \/ ttyp r0 = TEOF) ->
  match advance_to (x :: junk ++ r0 :: rest) with
  | Ok ts'' => next types f ts'' root path true
  | _ => IUB
  end = cont types f (r0 :: rest) root path true.
Proof.
  induction junk as [|y junk IH]; intros x r0 rest Hx Hj Hr; cbn [app].
  - rewrite advance_to_cons. destruct Hx as (_ & _ & _ & Hx). destruct Hr as [Hr|Hr].
    + rewrite Hr. now apply next_cont.
    + rewrite Hr. cbn [is_restart]. rewrite (ttype_neqb _ _ Hx). cbn [ttype_eqb].
      unfold next, advance, cont. rewrite Hr. reflexivity.
  - inversion Hj; subst. rewrite advance_to_cons. rewrite (stray_not_restart y) by assumption.
    destruct Hx as (_ & _ & _ & Hx). rewrite (ttype_neqb _ _ Hx).
    match goal with H : stray y |- _ => pose proof H as (_ & _ & _ & Hy) end.
    rewrite (ttype_neqb _ _ Hy). now apply IH.
Qed.

Definition stopper (t : token) : Prop := is_restart (ttyp t) = true \/ ttyp t = TEOF.
Lemma head_of rest0 rest r0 rs : at_start rest0 -> rest = r0 :: rs -> stopper r0 ->
  exists q qs, rest0 ++ rest = q :: qs /\ stopper q.
Proof.
  intros H -> Hs. destruct rest0 as [|q qs]; [now exists r0, rs|]. exists q, (qs ++ r0 :: rs). split; [reflexivity|].
  left. destruct H as [H|[H|H]]; rewrite H; reflexivity.
Qed.

Lemma interp_recovers : forall types ts items e, Recovers ts items e ->
  forall r0 rs f root path err b, stopper r0 -> get_at path root = Some b ->
  length (ts ++ r0 :: rs) <= f ->
  exists f', length (r0 :: rs) <= f' /\
    cont types f (ts ++ r0 :: rs) root path err =
    cont types f' (r0 :: rs) (upd_at path (capplys types items) root) path (err || e).
Proof.
  intros types ts items e H.
  induction H as [| n eq v vs s rest0 items b1 Hd IH | t n st sec o c body bi rest0 items b1 b2 Hs Hb IHb Hr IHr
                 | x junk rest0 items b1 Hx Hj Ha Hr IH | n x junk rest0 items b1 Hx Hne Hj Ha Hr IH];
    intros r0 rs f root path err b Hst Hb0 Hf.
  - exists f. split; [exact Hf|]. cbn [app]. rewrite orb_false_r.
    assert (E : upd_at path (capplys types []) root = root) by exact (upd_at_id path root b Hb0).
    rewrite E. reflexivity.
  - destruct f as [|f]; [simpl in Hf; lia|].
    rewrite <- !app_comm_cons, <- app_assoc, <- app_comm_cons.
    erewrite cont_step; [|discriminate| |apply stmt_set_ok]; [|discriminate].
    destruct (IH r0 rs f (upd_at path (block_add_setting (mkSet n (v :: vs) false)) root) path err
                 (block_add_setting (mkSet n (v :: vs) false) b) Hst) as [f' [Hf' E]].
    + rewrite get_upd_at, Hb0. reflexivity.
    + lens.
    + exists f'. split; [exact Hf'|]. rewrite E, upd_at_comp. reflexivity.
  - destruct f as [|f]; [simpl in Hf; lia|].
    rewrite <- !app_comm_cons, <- app_assoc, <- app_comm_cons, <- app_assoc, <- app_comm_cons.
    destruct (add_sub_block b (string_to_block_type types t) n sec) as [b' i] eqn:Ea.
    destruct (add_sub_block_get _ _ _ _ _ _ Ea) as [cb0 Hc].
    erewrite cont_step; [|discriminate| |rewrite stmt_blk_ok with (sec := sec) (b := b) by assumption; rewrite Ea; reflexivity];
      [|discriminate].
    set (root1 := upd_at path (fun _ => b') root).
    destruct (IHb (mkTok TBlockEnd c) (rest0 ++ r0 :: rs) f root1 (path ++ [i]) err cb0) as [f1 [Hf1 E1]].
    + left. reflexivity.
    + unfold root1. rewrite get_at_snoc, get_upd_at, Hb0. exact Hc.
    + lens.
    + rewrite E1. destruct f1 as [|f1]; [simpl in Hf1; lia|].
      erewrite cont_step; [|discriminate| |apply stmt_end_ok]; [|discriminate].
      unfold root1. rewrite upd_at_snoc, upd_at_comp.
      set (root2 := upd_at path (fun _ : cblock => upd_sub i (capplys types bi) b') root).
      destruct (IHr r0 rs f1 root2 path (err || b1)%bool (upd_sub i (capplys types bi) b') Hst) as [f2 [Hf2 E2]].
      * unfold root2. rewrite get_upd_at, Hb0. reflexivity.
      * simpl in Hf1. lia.
      * exists f2. split; [exact Hf2|]. rewrite E2. unfold root2. rewrite upd_at_comp, orb_assoc.
        f_equal. apply upd_at_ext with (b := b); [exact Hb0|].
        change (capplys types (IBlk t n sec bi :: items) b) with
          (capplys types items (capply types (IBlk t n sec bi) b)).
        rewrite capply_blk, Ea. reflexivity.
  - destruct f as [|f]; [simpl in Hf; lia|].
    destruct (head_of rest0 (r0 :: rs) r0 rs Ha eq_refl Hst) as (q & qs & Eq & Hq).
    rewrite <- app_comm_cons, <- app_assoc.
    destruct (IH r0 rs f root path true b Hst Hb0) as [f' [Hf' E]]; [lens|].
    exists f'. split; [exact Hf'|]. rewrite orb_true_r. cbn [orb] in E. rewrite <- E. rewrite Eq.
    unfold cont at 1. pose proof Hx as (X1 & X2 & X3 & X4). rewrite (ttype_neqb _ _ X4).
    rewrite interp_loop_S.
    assert (Es : stmt types (x :: junk ++ q :: qs) root path = SExn (x :: junk ++ q :: qs) root path).
    { unfold stmt. destruct (ttyp x); try reflexivity; exfalso; auto. }
    rewrite Es. now apply skip_stray.
  - destruct f as [|f]; [simpl in Hf; lia|].
    destruct (head_of rest0 (r0 :: rs) r0 rs Ha eq_refl Hst) as (q & qs & Eq & Hq).
    rewrite <- !app_comm_cons, <- app_assoc.
    destruct (IH r0 rs f root path true b Hst Hb0) as [f' [Hf' E]]; [lens|].
    exists f'. split; [exact Hf'|]. rewrite orb_true_r. cbn [orb] in E. rewrite <- E. rewrite Eq.
    unfold cont at 1. cbn [ttyp ttype_eqb]. rewrite interp_loop_S.
    pose proof Hx as (X1 & X2 & X3 & X4).
    assert (Es : stmt types (mkTok TName n :: x :: junk ++ q :: qs) root path = SExn (x :: junk ++ q :: qs) root path).
    { unfold stmt. cbn [ttyp]. unfold stmt_setting, expect.
      rewrite advance_step by discriminate. rewrite (ttype_neqb _ _ X4), (ttype_neqb _ _ Hne). reflexivity. }
    rewrite Es. now apply skip_stray.
Qed.
Lemma interpret_recovers types ts items e v : Recovers ts items e -> ts <> [] ->
  exists r, interpret types (ts ++ [mkTok TEOF v]) = IOk r e /\ erase r = meaning types items.
Proof.
  intros H Hne.
  destruct (interp_recovers types ts items e H (mkTok TEOF v) [] (S (length (ts ++ [mkTok TEOF v]))) root_block [] false root_block)
    as [f' [Hf E]].
  - right. reflexivity.
  - reflexivity.
  - lia.
  - exists (capplys types items root_block). split; [|rewrite erase_capplys; reflexivity].
    unfold cont at 2 in E. cbn [ttyp ttype_eqb interp_finish orb] in E. unfold interpret.
    destruct ts as [|t ts]; [contradiction|]. cbn [app] in *. unfold cont in E.
    assert (Ht : ttyp t <> TEOF).
    { inversion H; subst; try discriminate. match goal with X : stray t |- _ => destruct X as (_ & _ & _ & X) end. assumption. }
    rewrite (ttype_neqb _ _ Ht) in E. exact E.
Qed.

(** Every derivation of the error-free grammar is one here. *)
Lemma derives_recovers ts items : Derives ts items -> Recovers ts items false.
Proof.
  induction 1 as [|n e v vs s rest items Hd IH|t n st sec o c body bi rest items Hs Hb IHb Hr IHr].
  - constructor.
  - now constructor.
  - change false with (false || false)%bool. now constructor.
Qed.

(** A setting without its semicolon: it is stored, and the statement after it is lost. *)
Lemma missing_semicolon types n e v vs n2 e2 v2 s2 vE :
  exists r, interpret types ((mkTok TName n :: mkTok TEquals e :: map (mkTok TValue) (v :: vs)) ++
     [mkTok TName n2; mkTok TEquals e2; mkTok TValue v2; mkTok TEndStatement s2; mkTok TEOF vE]) = IOk r true /\
  erase r = meaning types [ISet n (v :: vs)].
Proof.
  exists (capplys types [ISet n (v :: vs)] root_block). split; [|rewrite erase_capplys; reflexivity].
  unfold interpret. cbn [app map].
  set (rest := mkTok TName n2 :: _).
  set (L := length _). rewrite interp_loop_S.
  assert (Es : stmt types (mkTok TName n :: mkTok TEquals e :: mkTok TValue v :: map (mkTok TValue) vs ++ rest) root_block [] =
     SExn rest (capplys types [ISet n (v :: vs)] root_block) []).
  { unfold stmt. cbn [ttyp]. unfold stmt_setting. rewrite expect_ok by discriminate. cbn beta.
    rewrite expect_ok by discriminate. cbn [cur_val tval].
    assert (C : forall vs v acc, collect_values (mkTok TValue v :: map (mkTok TValue) vs ++ rest) acc =
       Ok (mkTok TValue (last (v :: vs) []) :: rest, acc ++ vs)).
    { induction vs0 as [|w vs0 IH]; intros v0 acc.
      - cbn. rewrite app_nil_r. reflexivity.
      - cbn [map app]. rewrite collect_values_step. rewrite IH. rewrite <- app_assoc. reflexivity. }
    rewrite C. unfold expect. unfold rest at 1. rewrite advance_step by discriminate. reflexivity. }
  rewrite Es. unfold rest. unfold L. cbn [length map app].
  reflexivity.
Qed.

(** * Copies *)
(** Specification: [c] looks like [b] in everything that can be asked of a block, except
    that none of its settings has been used. *)
Inductive looks_like : cblock -> cblock -> Prop :=
| looks_like_CB : forall b c,
    cb_type c = cb_type b -> cb_name c = cb_name b -> get_secondary_type c = get_secondary_type b ->
    Forall2 (fun x y => sname y = sname x /\ svals y = svals x /\ stouched y = false) (cb_sets b) (cb_sets c) ->
    Forall2 looks_like (cb_subs b) (cb_subs c) -> looks_like b c.
Lemma copy_secondary b : get_secondary_type (copy_block b) = get_secondary_type b.
Proof.
  destruct b as [t n s sets subs]. cbn [copy_block]. unfold get_secondary_type. cbn [cb_sec cb_name].
  destruct s; [destruct n|]; reflexivity.
Qed.
Lemma copy_looks_like : forall b, looks_like b (copy_block b).
Proof.
  induction b as [t n s sets subs IH] using cblock_ind'. constructor.
  - reflexivity.
  - reflexivity.
  - apply copy_secondary.
  - cbn [copy_block cb_sets]. induction sets as [|x l IHl]; cbn [map]; constructor; [|exact IHl].
    repeat split.
  - cbn [copy_block cb_subs]. induction IH as [|x l Hx Hl IHl]; cbn [map]; constructor; assumption.
Qed.
