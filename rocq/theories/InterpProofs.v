From Verif Require Import Base ConfigModel LexSpec InterpSpec.

Lemma ttype_eqb_eq : forall a b, ttype_eqb a b = true <-> a = b.
Proof. intros a b; destruct a, b; simpl; split; intro H; try reflexivity; discriminate. Qed.

Lemma ttype_eqb_refl : forall a, ttype_eqb a a = true.
Proof. destruct a; reflexivity. Qed.

(** * Paths *)
Lemma upd_nth_length : forall A i (f : A -> A) l, length (upd_nth i f l) = length l.
Proof.
  intros A i f l. revert i. induction l as [|x l IH]; intro i; destruct i; simpl; auto.
Qed.

Lemma upd_nth_get : forall A i (f : A -> A) l, nth_error (upd_nth i f l) i =
  match nth_error l i with Some x => Some (f x) | None => None end.
Proof.
  intros A i f l. revert i. induction l as [|x l IH]; intro i; destruct i; simpl; auto.
Qed.

Lemma upd_nth_other : forall A i j (f : A -> A) l, i <> j -> nth_error (upd_nth i f l) j = nth_error l j.
Proof.
  intros A i j f l. revert i j. induction l as [|x l IH]; intros i j H; destruct i, j; simpl; auto; try lia.
Qed.

Lemma upd_nth_ext : forall A i (f g : A -> A) l x, nth_error l i = Some x -> f x = g x ->
  upd_nth i f l = upd_nth i g l.
Proof.
  intros A i f g l. revert i. induction l as [|y l IH]; intros i x H Hx; destruct i; simpl in *; try reflexivity.
  - inversion H; subst. rewrite Hx. reflexivity.
  - f_equal. eapply IH; eauto.
Qed.

Lemma upd_nth_comp : forall A i (f g : A -> A) l,
  upd_nth i g (upd_nth i f l) = upd_nth i (fun x => g (f x)) l.
Proof.
  intros A i f g l. revert i. induction l as [|y l IH]; intros i; destruct i; simpl; try reflexivity.
  f_equal. apply IH.
Qed.

Lemma upd_at_ext : forall p f g root b, get_at p root = Some b -> f b = g b ->
  upd_at p f root = upd_at p g root.
Proof.
  induction p as [|i p IH]; intros f g root b H Hb; simpl in *.
  - inversion H; subst. exact Hb.
  - destruct root as [t n s sets subs]. simpl in H.
    destruct (nth_error subs i) as [c|] eqn:E; [|discriminate].
    f_equal. apply upd_nth_ext with (x := c); [exact E|]. eapply IH; eauto.
Qed.

Lemma upd_at_comp : forall p f g root, upd_at p g (upd_at p f root) = upd_at p (fun x => g (f x)) root.
Proof.
  induction p as [|i p IH]; intros f g root; simpl; [reflexivity|].
  destruct root as [t n s sets subs]. rewrite upd_nth_comp. f_equal.
  clear -IH. revert i. induction subs as [|x l IHl]; intro i; destruct i; simpl; try reflexivity.
  - rewrite IH. reflexivity.
  - f_equal. apply IHl.
Qed.

Lemma get_upd_at : forall p f root, get_at p (upd_at p f root) =
  match get_at p root with Some b => Some (f b) | None => None end.
Proof.
  induction p as [|i p IH]; intros f root; simpl; [reflexivity|].
  destruct root as [t n s sets subs]. simpl. rewrite upd_nth_get.
  destruct (nth_error subs i); [apply IH|reflexivity].
Qed.

Definition upd_sub (i : nat) (f : cblock -> cblock) (b : cblock) : cblock :=
  match b with CB t n s sets subs => CB t n s sets (upd_nth i f subs) end.

Lemma upd_at_snoc : forall p i f root, upd_at (p ++ [i]) f root = upd_at p (upd_sub i f) root.
Proof.
  induction p as [|j p IH]; intros i f root; simpl.
  - destruct root. reflexivity.
  - destruct root as [t n s sets subs]. f_equal.
    revert j. induction subs as [|x l IHl]; intro j; destruct j; simpl; try reflexivity.
    + rewrite IH. reflexivity.
    + f_equal. apply IHl.
Qed.

Lemma get_at_snoc : forall p i root, get_at (p ++ [i]) root =
  match get_at p root with Some b => nth_error (cb_subs b) i | None => None end.
Proof.
  induction p as [|j p IH]; intros i root; simpl.
  - destruct (nth_error (cb_subs root) i); reflexivity.
  - destruct (nth_error (cb_subs root) j); [apply IH|reflexivity].
Qed.

(** * Settings and sub-blocks against the abstract operations *)
Lemma has_setting_In : forall sets n, has_setting sets n = true <-> In n (map sname sets).
Proof.
  induction sets as [|s r IH]; intro n; simpl.
  - split; [discriminate|contradiction].
  - rewrite orb_true_iff, IH, str_eqb_eq. tauto.
Qed.

Definition esets (sets : list setting) := map (fun x => (sname x, svals x)) sets.

Lemma add_setting_put : forall sets n v t,
  esets (add_setting sets (mkSet n v t)) = put_set (esets sets) n v.
Proof.
  intros sets n v t. unfold add_setting. simpl sname. simpl svals.
  destruct (has_setting sets n) eqn:E.
  - induction sets as [|s r IH]; simpl in *; [discriminate|].
    destruct (str_eqb (sname s) n) eqn:Es.
    + simpl. rewrite Es. reflexivity.
    + simpl in E. destruct (get_setting r n) as [r' o] eqn:Eg. simpl. rewrite Es. simpl.
      f_equal. simpl in IH. apply IH. exact E.
  - induction sets as [|s r IH]; simpl in *; [reflexivity|].
    apply orb_false_iff in E. destruct E as [E1 E2]. rewrite E1. f_equal. apply IH. exact E2.
Qed.

Lemma find_sub_spec : forall subs ty n,
  match find_sub subs ty n with
  | Some i => exists b, nth_error subs i = Some b /\ cb_type b = ty /\ cb_name b = n
  | None => forall b, In b subs -> ~ (cb_type b = ty /\ cb_name b = n)
  end.
Proof.
  induction subs as [|b r IH]; intros ty n; simpl.
  - intros b [].
  - destruct (has_type_and_name b ty n) eqn:E.
    + unfold has_type_and_name in E. apply andb_true_iff in E. destruct E as [E1 E2].
      apply Nat.eqb_eq in E1. apply str_eqb_eq in E2. exists b. auto.
    + specialize (IH ty n). destruct (find_sub r ty n) as [i|].
      * exact IH.
      * intros c [H|H]; [subst c|apply IH; exact H].
        intros [H1 H2]. unfold has_type_and_name in E.
        rewrite H1, H2, Nat.eqb_refl, str_eqb_refl in E. discriminate.
Qed.

Lemma put_sub_found : forall subs ty n sec i (g : cblock -> cblock) (f : atree -> atree),
  find_sub subs ty n = Some i -> (forall c, erase (g c) = f (erase c)) ->
  map erase (upd_nth i g subs) = put_sub (map erase subs) ty n sec f.
Proof.
  induction subs as [|b r IH]; intros ty n sec i g f H Hg; simpl in *; [discriminate|].
  unfold has_type_and_name in H. destruct b as [bt bn bs bsets bsubs]. simpl in *.
  destruct (Nat.eqb bt ty && str_eqb bn n).
  - inversion H; subst i. simpl. rewrite Hg. reflexivity.
  - destruct (find_sub r ty n) as [j|] eqn:E; [|discriminate]. inversion H; subst i.
    simpl. f_equal. apply IH; assumption.
Qed.

Lemma put_sub_new : forall subs ty n sec (g : cblock -> cblock) (f : atree -> atree),
  find_sub subs ty n = None -> (forall c, erase (g c) = f (erase c)) ->
  map erase (upd_nth (length subs) g (subs ++ [CB ty n sec [] []])) = put_sub (map erase subs) ty n sec f.
Proof.
  induction subs as [|b r IH]; intros ty n sec g f H Hg; simpl in *.
  - rewrite Hg. reflexivity.
  - unfold has_type_and_name in H. destruct b as [bt bn bs bsets bsubs]. simpl in *.
    destruct (Nat.eqb bt ty && str_eqb bn n); [discriminate|].
    destruct (find_sub r ty n) as [j|] eqn:E; [discriminate|].
    f_equal. apply IH; assumption.
Qed.

(** * Concrete effect of items *)
Fixpoint capply (types : list str) (i : item) (b : cblock) {struct i} : cblock :=
  match i with
  | ISet n v => block_add_setting (mkSet n v false) b
  | IBlk ty n sec body =>
      let (b', k) := add_sub_block b (string_to_block_type types ty) n sec in
      upd_sub k ((fix go (l : list item) (b : cblock) : cblock :=
                    match l with [] => b | j :: l' => go l' (capply types j b) end) body) b'
  end.

Definition capplys (types : list str) : list item -> cblock -> cblock :=
  fix go (l : list item) (b : cblock) : cblock :=
    match l with [] => b | j :: l' => go l' (capply types j b) end.

Lemma capplys_cons : forall types i l b, capplys types (i :: l) b = capplys types l (capply types i b).
Proof. reflexivity. Qed.

Lemma apply_items_cons : forall types i l b,
  apply_items types (i :: l) b = apply_items types l (apply_item types i b).
Proof. reflexivity. Qed.

Lemma capply_blk : forall types ty n sec body b,
  capply types (IBlk ty n sec body) b =
  let (b', k) := add_sub_block b (string_to_block_type types ty) n sec in
  upd_sub k (capplys types body) b'.
Proof.
  reflexivity.
Qed.

Lemma apply_blk : forall types ty n sec body a b c sets subs,
  apply_item types (IBlk ty n sec body) (AT a b c sets subs) =
  AT a b c sets (put_sub subs (string_to_block_type types ty) n sec (apply_items types body)).
Proof. reflexivity. Qed.

Fixpoint item_size (i : item) : nat :=
  match i with
  | ISet _ _ => 1
  | IBlk _ _ _ body => S (list_sum (map item_size body))
  end.

Lemma erase_capply_sized : forall k types,
  (forall i, item_size i <= k -> forall b, erase (capply types i b) = apply_item types i (erase b)) /\
  (forall l, list_sum (map item_size l) <= k -> forall b, erase (capplys types l b) = apply_items types l (erase b)).
Proof.
  induction k as [|k IH]; intro types.
  - split.
    + intros [n v|ty n sec body] H; simpl in H; lia.
    + intros [|[n v|ty n sec body] l] H b; simpl in H; try lia. reflexivity.
  - destruct (IH types) as [IH1 IH2]. 
    assert (Hi : forall i, item_size i <= S k -> forall b, erase (capply types i b) = apply_item types i (erase b)).
    { intros [n v|ty n sec body] H b.
      - destruct b as [t bn s sets subs]. cbn [capply block_add_setting erase apply_item].
        fold (esets (add_setting sets (mkSet n v false))). rewrite add_setting_put. reflexivity.
      - rewrite capply_blk. destruct b as [t bn s sets subs]. cbn [erase]. rewrite apply_blk.
        simpl in H.
        assert (Hb : forall c, erase (capplys types body c) = apply_items types body (erase c)).
        { intro c. apply IH2. lia. }
        cbn [add_sub_block].
        destruct (find_sub subs (string_to_block_type types ty) n) as [i|] eqn:E.
        + cbn [upd_sub erase]. f_equal. apply put_sub_found; assumption.
        + cbn [upd_sub erase]. f_equal. apply put_sub_new; assumption. }
    split; [exact Hi|].
    intros l. induction l as [|i l IHl]; intros H b; [reflexivity|].
    simpl in H. rewrite capplys_cons, apply_items_cons. rewrite IHl by lia. rewrite Hi by lia. reflexivity.
Qed.

Lemma erase_capplys : forall types l b, erase (capplys types l b) = apply_items types l (erase b).
Proof. intros types l b. destruct (erase_capply_sized (list_sum (map item_size l)) types) as [_ H]. apply H. lia. Qed.

(** * The statement parser on well-formed input *)
Lemma advance_step : forall t t' r, ttyp t <> TEOF ->
  advance (t :: t' :: r) = Ok (negb (ttype_eqb (ttyp t') TEOF), t' :: r).
Proof.
  intros t t' r H. unfold advance.
  destruct (ttype_eqb (ttyp t) TEOF) eqn:E; [apply ttype_eqb_eq in E; contradiction|reflexivity].
Qed.

Lemma expect_ok : forall ty v t r root path k, ttyp t <> TEOF -> ty <> TEOF ->
  expect ty (t :: mkTok ty v :: r) root path k = k (mkTok ty v :: r).
Proof.
  intros ty v t r root path k H1 H2. unfold expect. rewrite advance_step by exact H1.
  cbn [ttyp]. rewrite ttype_eqb_refl.
  destruct (ttype_eqb ty TEOF) eqn:E; [apply ttype_eqb_eq in E; contradiction|reflexivity].
Qed.

Lemma collect_values_step : forall v w r acc,
  collect_values (mkTok TValue v :: mkTok TValue w :: r) acc =
  collect_values (mkTok TValue w :: r) (acc ++ [w]).
Proof. reflexivity. Qed.

Lemma collect_values_ok : forall vs v s r acc,
  collect_values (mkTok TValue v :: map (mkTok TValue) vs ++ mkTok TEndStatement s :: r) acc =
  Ok (mkTok TValue (last vs v) :: mkTok TEndStatement s :: r, acc ++ vs).
Proof.
  induction vs as [|w vs IH]; intros v s r acc.
  - simpl. rewrite app_nil_r. reflexivity.
  - cbn [map app]. rewrite collect_values_step, IH.
    f_equal. f_equal.
    + f_equal. f_equal. destruct vs as [|x vs]; [reflexivity|].
      assert (HL : forall a b, last (x :: vs) a = last (x :: vs) b).
      { clear. revert x. induction vs as [|z t IHt]; intros y a b; [reflexivity|].
        simpl. simpl in IHt. apply IHt. }
      simpl. apply HL.
    + rewrite <- app_assoc. reflexivity.
Qed.

Lemma stmt_set_ok : forall types n e v vs s rest root path,
  stmt types (mkTok TName n :: mkTok TEquals e :: map (mkTok TValue) (v :: vs)
               ++ mkTok TEndStatement s :: rest) root path =
  SOk (mkTok TEndStatement s :: rest)
      (upd_at path (block_add_setting (mkSet n (v :: vs) false)) root) path.
Proof.
  intros. unfold stmt. cbn [ttyp]. unfold stmt_setting.
  rewrite expect_ok by discriminate. cbn [map app].
  rewrite expect_ok by discriminate. cbn [cur_val tval].
  rewrite collect_values_ok. cbn [app].
  rewrite expect_ok by discriminate. reflexivity.
Qed.

Lemma stmt_blk_ok : forall types t n st sec o rest root path b, sec_tokens st sec ->
  get_at path root = Some b ->
  stmt types (mkTok TBlockType t :: mkTok TBlockName n :: st ++ mkTok TBlockStart o :: rest) root path =
  let (b', i) := add_sub_block b (string_to_block_type types t) n sec in
  SOk (mkTok TBlockStart o :: rest) (upd_at path (fun _ => b') root) (path ++ [i]).
Proof.
  intros types t n st sec o rest root path b Hs Hb. unfold stmt. cbn [ttyp]. unfold stmt_block.
  rewrite expect_ok by discriminate. cbn [cur_val tval].
  inversion Hs; subst.
  - cbn [app tokent_n ttyp ttype_eqb]. unfold open_block. rewrite expect_ok by discriminate.
    rewrite Hb. reflexivity.
  - cbn [app tokent_n ttyp ttype_eqb]. rewrite advance_step by discriminate.
    cbn [ttyp ttype_eqb negb].
    rewrite expect_ok by discriminate. cbn [cur_val tval].
    rewrite expect_ok by discriminate. unfold open_block. rewrite expect_ok by discriminate.
    rewrite Hb. reflexivity.
Qed.

Lemma stmt_end_ok : forall types c rest root path i,
  stmt types (mkTok TBlockEnd c :: rest) root (path ++ [i]) = SOk (mkTok TBlockEnd c :: rest) root path.
Proof.
  intros. unfold stmt. cbn [ttyp]. unfold stmt_end.
  destruct (path ++ [i]) eqn:E; [destruct path; discriminate|].
  rewrite <- E, removelast_last. reflexivity.
Qed.

(** Continuing at a statement boundary. *)
Definition cont (types : list str) (f : nat) (ts : list token) (root : cblock) (path : list nat)
           (err : bool) : ires :=
  match ts with
  | [] => IUB
  | t :: _ => if ttype_eqb (ttyp t) TEOF then interp_finish root path err
              else interp_loop types f ts root path err
  end.

Definition next (types : list str) (f : nat) ts root path err :=
  match advance ts with
  | Ok (true, ts') => interp_loop types f ts' root path err
  | Ok (false, _) => interp_finish root path err
  | _ => IUB
  end.

Lemma interp_loop_S : forall types f ts root path err,
  interp_loop types (S f) ts root path err =
  match stmt types ts root path with
  | SUB => IUB
  | SOk ts' root' path' => next types f ts' root' path' err
  | SExn ts' root' path' =>
      match advance_to ts' with
      | Ok ts'' => next types f ts'' root' path' true
      | _ => IUB
      end
  end.
Proof. reflexivity. Qed.

Lemma next_cont : forall types f t rest root path err, ttyp t <> TEOF ->
  next types f (t :: rest) root path err = cont types f rest root path err.
Proof.
  intros types f t rest root path err H. unfold next, advance.
  destruct (ttype_eqb (ttyp t) TEOF) eqn:E; [apply ttype_eqb_eq in E; contradiction|].
  destruct rest as [|t' r]; [reflexivity|]. unfold cont.
  destruct (ttype_eqb (ttyp t') TEOF); reflexivity.
Qed.

Lemma cont_step : forall types f t ts t2 rest root root' path path' err,
  ttyp t <> TEOF -> ttyp t2 <> TEOF ->
  stmt types (t :: ts) root path = SOk (t2 :: rest) root' path' ->
  cont types (S f) (t :: ts) root path err = cont types f rest root' path' err.
Proof.
  intros types f t ts t2 rest root root' path path' err H1 H2 H. unfold cont at 1.
  destruct (ttype_eqb (ttyp t) TEOF) eqn:E; [apply ttype_eqb_eq in E; contradiction|].
  rewrite interp_loop_S, H. apply next_cont. exact H2.
Qed.

Lemma add_sub_block_get : forall b ty n sec b' i, add_sub_block b ty n sec = (b', i) ->
  exists c, nth_error (cb_subs b') i = Some c.
Proof.
  intros b ty n sec b' i H. destruct b as [t bn s sets subs]. simpl in H.
  assert (Hf := find_sub_spec subs ty n). destruct (find_sub subs ty n) as [j|].
  - inversion H; subst. destruct Hf as [c [Hc _]]. exists c. exact Hc.
  - inversion H; subst. simpl. exists (CB ty n sec [] []). rewrite nth_error_app2 by lia.
    rewrite Nat.sub_diag. reflexivity.
Qed.

Lemma upd_at_id : forall p root b, get_at p root = Some b -> upd_at p (fun x => x) root = root.
Proof.
  induction p as [|i p IH]; intros root b H; simpl in *; [reflexivity|].
  destruct root as [t n s sets subs]. simpl in H.
  f_equal. revert i b H. induction subs as [|x l IHl]; intros i b H; destruct i; simpl in *; try reflexivity.
  - f_equal. eapply IH; eauto.
  - f_equal. eapply IHl; eauto.
Qed.

Ltac lens := repeat first [rewrite app_length in * | rewrite map_length in * | progress cbn [length app map] in *]; lia.

Lemma interp_derives : forall types ts items, Derives ts items ->
  forall rest f root path err b, rest <> [] -> get_at path root = Some b ->
  length (ts ++ rest) <= f ->
  exists f', length rest <= f' /\
    cont types f (ts ++ rest) root path err = cont types f' rest (upd_at path (capplys types items) root) path err.
Proof.
  intros types ts items H.
  induction H as [| n e v vs s rest0 items Hd IH | t n st sec o c body bi rest0 items Hs Hb IHb Hr IHr];
    intros rest f root path err b Hne Hb0 Hf.
  - exists f. split; [exact Hf|]. cbn [app].
    assert (E : upd_at path (capplys types []) root = root).
    { exact (upd_at_id path root b Hb0). }
    rewrite E. reflexivity.
  - destruct f as [|f]; [simpl in Hf; lia|].
    rewrite <- !app_comm_cons, <- app_assoc, <- app_comm_cons.
    erewrite cont_step; [|discriminate| |apply stmt_set_ok]; [|discriminate].
    destruct (IH rest f (upd_at path (block_add_setting (mkSet n (v :: vs) false)) root) path err
                 (block_add_setting (mkSet n (v :: vs) false) b) Hne) as [f' [Hf' E]].
    + rewrite get_upd_at, Hb0. reflexivity.
    + lens.
    + exists f'. split; [exact Hf'|]. rewrite E, upd_at_comp. reflexivity.
  - destruct f as [|f]; [simpl in Hf; lia|].
    rewrite <- !app_comm_cons, <- app_assoc, <- app_comm_cons, <- app_assoc, <- app_comm_cons.
    destruct (add_sub_block b (string_to_block_type types t) n sec) as [b' i] eqn:Ea.
    destruct (add_sub_block_get _ _ _ _ _ _ Ea) as [cb0 Hc].
    erewrite cont_step; [|discriminate| |rewrite stmt_blk_ok with (sec := sec) (b := b) by assumption; rewrite Ea; reflexivity];
      [|discriminate].
    set (root1 := upd_at path (fun _ => b') root).
    destruct (IHb (mkTok TBlockEnd c :: rest0 ++ rest) f root1 (path ++ [i]) err cb0) as [f1 [Hf1 E1]].
    + discriminate.
    + unfold root1. rewrite get_at_snoc, get_upd_at, Hb0. exact Hc.
    + lens.
    + rewrite E1. destruct f1 as [|f1]; [simpl in Hf1; lia|].
      erewrite cont_step; [|discriminate| |apply stmt_end_ok]; [|discriminate].
      unfold root1. rewrite upd_at_snoc, upd_at_comp.
      set (root2 := upd_at path (fun _ : cblock => upd_sub i (capplys types bi) b') root).
      destruct (IHr rest f1 root2 path err (upd_sub i (capplys types bi) b') Hne) as [f2 [Hf2 E2]].
      * unfold root2. rewrite get_upd_at, Hb0. reflexivity.
      * simpl in Hf1. lia.
      * exists f2. split; [exact Hf2|]. rewrite E2. unfold root2. rewrite upd_at_comp.
        f_equal. apply upd_at_ext with (b := b); [exact Hb0|].
        change (capplys types (IBlk t n sec bi :: items) b) with
          (capplys types items (capply types (IBlk t n sec bi) b)).
        rewrite capply_blk, Ea. reflexivity.
Qed.

Lemma interpret_derives : forall types ts items, Derives ts items -> ts <> [] ->
  forall v, interpret types (ts ++ [mkTok TEOF v]) = IOk (capplys types items root_block) false.
Proof.
  intros types ts items H Hne v.
  destruct (interp_derives types ts items H [mkTok TEOF v] (S (length (ts ++ [mkTok TEOF v])))
             root_block [] false root_block) as [f' [Hf E]].
  - discriminate.
  - reflexivity.
  - lia.
  - unfold interpret. unfold cont at 2 in E. cbn [ttyp ttype_eqb interp_finish] in E.
    unfold cont in E. inversion H; subst; try contradiction; exact E.
Qed.

(** * The converse: a clean run comes from a derivation *)

(** Statement-level events. *)
Inductive event : Type :=
| EvSet (n e : str) (v : str) (vs : list str) (s : str)
| EvOpen (t n : str) (st : list token) (sec : str) (o : str)
| EvClose (c : str).

Definition ev_tokens (e : event) : list token :=
  match e with
  | EvSet n e v vs s => mkTok TName n :: mkTok TEquals e :: map (mkTok TValue) (v :: vs) ++ [mkTok TEndStatement s]
  | EvOpen t n st sec o => mkTok TBlockType t :: mkTok TBlockName n :: st ++ [mkTok TBlockStart o]
  | EvClose c => [mkTok TBlockEnd c]
  end.
Definition evs_tokens (l : list event) := flat_map ev_tokens l.

Fixpoint ev_ok (d : nat) (l : list event) : Prop :=
  match l with
  | [] => d = 0
  | EvSet _ _ _ _ _ :: r => ev_ok d r
  | EvOpen _ _ st sec _ :: r => sec_tokens st sec /\ ev_ok (S d) r
  | EvClose _ :: r => match d with 0 => False | S d' => ev_ok d' r end
  end.

(** d pending closes: d+1 derivations separated by closing tokens. *)
Fixpoint Der (d : nat) (ts : list token) : Prop :=
  match d with
  | 0 => exists items, Derives ts items
  | S d' => exists body items c rest, Derives body items /\ ts = body ++ mkTok TBlockEnd c :: rest /\ Der d' rest
  end.

Lemma Der_set : forall d n e v vs s ts, Der d ts ->
  Der d (ev_tokens (EvSet n e v vs s) ++ ts).
Proof.
  intros d n e v vs s ts H. destruct d as [|d].
  - destruct H as [items H]. exists (ISet n (v :: vs) :: items). simpl ev_tokens.
    rewrite <- !app_comm_cons, <- app_assoc. apply (D_set n e v vs s ts items H).
  - destruct H as (body & items & c & rest & H1 & H2 & H3). subst ts.
    exists (ev_tokens (EvSet n e v vs s) ++ body), (ISet n (v :: vs) :: items), c, rest.
    split; [|split; [rewrite app_assoc; reflexivity|exact H3]].
    simpl ev_tokens. rewrite <- !app_comm_cons, <- app_assoc. apply (D_set n e v vs s body items H1).
Qed.

Lemma ev_Der : forall l d, ev_ok d l -> Der d (evs_tokens l).
Proof.
  induction l as [|[n e v vs s|t n st sec o|c] l IH]; intros d H; simpl in H.
  - subst d. exists []. constructor.
  - apply Der_set. apply IH. exact H.
  - destruct H as [Hs H]. apply IH in H. destruct H as (body & items & c & rest & H1 & H2 & H3).
    change (evs_tokens (EvOpen t n st sec o :: l)) with (ev_tokens (EvOpen t n st sec o) ++ evs_tokens l).
    rewrite H2. destruct d as [|d].
    + destruct H3 as [items2 H3]. exists (IBlk t n sec items :: items2).
      simpl ev_tokens. rewrite <- !app_comm_cons, <- app_assoc. simpl. apply D_blk; assumption.
    + destruct H3 as (body2 & items2 & c2 & rest2 & J1 & J2 & J3). subst rest.
      exists (ev_tokens (EvOpen t n st sec o) ++ body ++ mkTok TBlockEnd c :: body2),
             (IBlk t n sec items :: items2), c2, rest2.
      split.
      * simpl ev_tokens. rewrite <- !app_comm_cons, <- app_assoc. simpl. apply D_blk; assumption.
      * split; [|exact J3]. rewrite <- !app_assoc. rewrite <- app_comm_cons. reflexivity.
  - destruct d as [|d]; [contradiction|]. apply IH in H.
    exists [], [], c, (evs_tokens l). split; [constructor|]. split; [reflexivity|exact H].
Qed.

(** Errors are sticky. *)
Lemma err_sticky : forall types f ts root path r, interp_loop types f ts root path true = IOk r false -> False.
Proof.
  intros types f. induction f as [|f IH]; intros ts root path r H; [discriminate|].
  rewrite interp_loop_S in H.
  assert (HN : forall ts' root' path', next types f ts' root' path' true = IOk r false -> False).
  { intros ts' root' path' HH. unfold next in HH.
    destruct (advance ts') as [[[|] ts2]| |]; try discriminate.
    - eapply IH. exact HH.
    - unfold interp_finish in HH. destruct path'; discriminate. }
  destruct (stmt types ts root path) as [ts' root' path'|ts' root' path'|].
  - eapply HN; exact H.
  - destruct (advance_to ts') as [ts2| |]; try discriminate. eapply HN; exact H.
  - discriminate.
Qed.

Lemma expect_inv : forall ty ts root path k ts' root' path',
  expect ty ts root path k = SOk ts' root' path' ->
  exists t v r, ts = t :: mkTok ty v :: r /\ ttyp t <> TEOF /\ ty <> TEOF /\
                k (mkTok ty v :: r) = SOk ts' root' path'.
Proof.
  intros ty ts root path k ts' root' path' H. unfold expect, advance in H.
  destruct ts as [|t r]; [discriminate|].
  destruct (ttype_eqb (ttyp t) TEOF) eqn:E.
  - simpl in H. discriminate.
  - destruct r as [|t' r]; [discriminate|].
    destruct (ttype_eqb (ttyp t') TEOF) eqn:E2; simpl in H; [discriminate|].
    destruct (ttype_eqb (ttyp t') ty) eqn:E3; [|discriminate].
    apply ttype_eqb_eq in E3. destruct t' as [ty' v]. simpl in *. subst ty'.
    exists t, v, r. split; [reflexivity|]. split.
    + intro Hc. rewrite Hc in E. discriminate.
    + split; [intro Hc; rewrite Hc in E2; discriminate|exact H].
Qed.

Lemma collect_values_inv : forall ts acc ts' vals, collect_values ts acc = Ok (ts', vals) ->
  forall v r, ts = mkTok TValue v :: r ->
  exists vs, vals = acc ++ vs /\
    ts = map (mkTok TValue) (v :: vs) ++ tl ts' /\ exists w, ts' = mkTok TValue w :: tl ts'.
Proof.
  induction ts as [|t ts IH]; intros acc ts' vals H v r E; [discriminate|].
  inversion E; subst t ts. cbn [collect_values ttyp ttype_eqb] in H.
  destruct r as [|t' r']; [discriminate|].
  destruct (ttype_eqb (ttyp t') TValue) eqn:Et.
  - destruct t' as [ty w]. simpl in Et. apply ttype_eqb_eq in Et. subst ty. simpl tval in H.
    destruct (IH _ _ _ H w r' eq_refl) as [vs [H1 [H2 H3]]].
    exists (w :: vs). split; [rewrite H1, <- app_assoc; reflexivity|]. split; [|exact H3].
    simpl. f_equal. exact H2.
  - inversion H; subst. exists []. split; [rewrite app_nil_r; reflexivity|]. split; [reflexivity|].
    exists v. reflexivity.
Qed.

Lemma stmt_inv : forall types ts root path ts' root' path',
  stmt types ts root path = SOk ts' root' path' ->
  exists e last_ rest, ts = ev_tokens e ++ rest /\ ts' = last_ :: rest /\ ttyp last_ <> TEOF /\
    match e with
    | EvSet _ _ _ _ _ => length path' = length path
    | EvOpen _ _ st sec _ => sec_tokens st sec /\ length path' = S (length path)
    | EvClose _ => length path = S (length path')
    end.
Proof.
  intros types ts root path ts' root' path' H. unfold stmt in H.
  destruct ts as [|[ty val] ts]; [discriminate|]. cbn [ttyp] in H.
  destruct ty; try discriminate.
  - unfold stmt_setting in H.
    apply expect_inv in H. destruct H as (t1 & e & r1 & E1 & _ & _ & H).
    apply expect_inv in H. destruct H as (t2 & v & r2 & E2 & _ & _ & H).
    destruct (collect_values (mkTok TValue v :: r2) [cur_val (mkTok TValue v :: r2)]) as [[ts3 vals]| |] eqn:Ec; try discriminate.
    destruct (collect_values_inv _ _ _ _ Ec v r2 eq_refl) as [vs [V1 [V2 [w V3]]]].
    apply expect_inv in H. destruct H as (t3 & s & r3 & E3 & _ & _ & H).
    inversion H; subst ts' root' path'.
    inversion E1; subst t1 ts. inversion E2; subst t2 r1.
    rewrite V2. rewrite E3. simpl tl.
    exists (EvSet val e v vs s), (mkTok TEndStatement s), r3.
    split.
    + simpl. rewrite <- app_assoc. reflexivity.
    + split; [reflexivity|]. split; [discriminate|reflexivity].
  - unfold stmt_block in H.
    apply expect_inv in H. destruct H as (t1 & n & r1 & E1 & _ & _ & H). inversion E1; subst t1 ts.
    assert (Hopen : forall bt nm sec tt, open_block bt nm sec tt root path = SOk ts' root' path' ->
       exists t0 o r, tt = t0 :: mkTok TBlockStart o :: r /\ ts' = mkTok TBlockStart o :: r /\
                      length path' = S (length path)).
    { intros bt nm sec tt HH. unfold open_block in HH.
      apply expect_inv in HH. destruct HH as (t0 & o & r & E0 & _ & _ & HH).
      destruct (get_at path root) as [b|]; [|discriminate].
      destruct (add_sub_block b bt nm sec) as [b' i]. inversion HH; subst.
      exists t0, o, r. split; [reflexivity|]. split; [reflexivity|]. rewrite app_length. simpl. lia. }
    cbn [tokent_n ttyp ttype_eqb] in H.
    destruct r1 as [|t2 r2]; [discriminate|].
    destruct (ttype_eqb (ttyp t2) TLPar) eqn:El.
    + rewrite advance_step in H by discriminate.
      apply ttype_eqb_eq in El. destruct t2 as [ty2 a]. simpl in El. subst ty2.
      apply expect_inv in H. destruct H as (t3 & sec & r3 & E3 & _ & _ & H).
      apply expect_inv in H. destruct H as (t4 & b & r4 & E4 & _ & _ & H).
      inversion E3; subst t3 r2. inversion E4; subst t4 r3.
      apply Hopen in H. destruct H as (t0 & o & r & E0 & H1 & H2). inversion E0; subst t0 r4.
      exists (EvOpen val n [mkTok TLPar a; mkTok TName sec; mkTok TRPar b] sec o), (mkTok TBlockStart o), r.
      split; [reflexivity|]. split; [exact H1|]. split; [discriminate|]. split; [constructor|exact H2].
    + apply Hopen in H. destruct H as (t0 & o & r & E0 & H1 & H2). inversion E0; subst.
      exists (EvOpen val n [] [] o), (mkTok TBlockStart o), r.
      split; [reflexivity|]. split; [reflexivity|]. split; [discriminate|]. split; [constructor|exact H2].
  - unfold stmt_end in H. destruct path as [|i p] eqn:Ep; [discriminate|].
    inversion H; subst. exists (EvClose val), (mkTok TBlockEnd val), ts.
    split; [reflexivity|]. split; [reflexivity|]. split; [discriminate|].
    assert (L : forall (A : Type) (l : list A) x, length (removelast (x :: l)) = length l).
    { clear. intros A l. induction l as [|y l IH]; intro x; [reflexivity|].
      change (removelast (x :: y :: l)) with (x :: removelast (y :: l)). cbn [length]. rewrite IH. reflexivity. }
    cbn [length]. apply f_equal. symmetry. exact (L nat p i).
Qed.

Definition no_eof (ts : list token) : Prop := forall t, In t ts -> ttyp t <> TEOF.

Lemma clean_run_events : forall types v f ts root path r, no_eof ts ->
  cont types f (ts ++ [mkTok TEOF v]) root path false = IOk r false ->
  exists l, ts = evs_tokens l /\ ev_ok (length path) l.
Proof.
  intros types v f. induction f as [|f IH]; intros ts root path r Hn H.
  - destruct ts as [|t ts]; simpl in H.
    + unfold interp_finish in H. destruct path; [|discriminate]. exists []. split; reflexivity.
    + destruct (ttype_eqb (ttyp t) TEOF) eqn:E; [|discriminate].
      exfalso. apply (Hn t (or_introl eq_refl)). apply ttype_eqb_eq. exact E.
  - destruct ts as [|t ts]; [simpl in H; unfold interp_finish in H; destruct path; [|discriminate];
      exists []; split; reflexivity|].
    rewrite <- app_comm_cons in H. unfold cont in H.
    destruct (ttype_eqb (ttyp t) TEOF) eqn:E.
    { exfalso. apply (Hn t (or_introl eq_refl)). apply ttype_eqb_eq. exact E. }
    rewrite interp_loop_S in H.
    destruct (stmt types (t :: ts ++ [mkTok TEOF v]) root path) as [ts' root' path'|ts' root' path'|] eqn:Es.
    + apply stmt_inv in Es. destruct Es as (e & la & rest & E1 & E2 & E3 & E4). subst ts'.
      rewrite next_cont in H by exact E3.
      (* rest ends in EOF since ev_tokens has none *)
      assert (Hrest : exists ts2, rest = ts2 ++ [mkTok TEOF v] /\ t :: ts = ev_tokens e ++ ts2).
      { rewrite app_comm_cons in E1.
        destruct rest as [|x rest0].
        - exfalso. rewrite app_nil_r in E1.
          assert (Hin : In (mkTok TEOF v) (ev_tokens e)) by (rewrite <- E1; apply in_or_app; right; left; reflexivity).
          clear - Hin E4. destruct e as [n e0 w vs s|t n st sec o|c]; simpl in Hin.
          + destruct Hin as [Hc|[Hc|[Hc|Hc]]]; try discriminate.
            apply in_app_or in Hc. destruct Hc as [Hc|Hc].
            * apply in_map_iff in Hc. destruct Hc as [x [Hx _]]. discriminate.
            * destruct Hc as [Hc|[]]; discriminate.
          + destruct Hin as [Hc|[Hc|Hc]]; try discriminate.
            destruct E4 as [Hs _]. apply in_app_or in Hc. destruct Hc as [Hc|Hc].
            * inversion Hs; subst; simpl in Hc; intuition discriminate.
            * destruct Hc as [Hc|[]]; discriminate.
          + destruct Hin as [Hc|[]]; discriminate.
        - destruct (exists_last (l := x :: rest0)) as [ts2 [y Hy]]; [discriminate|].
          rewrite Hy in E1. rewrite app_assoc in E1. apply app_inj_tail in E1. destruct E1 as [E1 E1'].
          subst y. exists ts2. split; [exact Hy|exact E1]. }
      destruct Hrest as [ts2 [R1 R2]]. subst rest.
      destruct (IH ts2 root' path' r) as [l [L1 L2]].
      * intros x Hx. apply Hn. rewrite R2. apply in_or_app. right. exact Hx.
      * exact H.
      * exists (e :: l). split; [rewrite R2, L1; reflexivity|].
        destruct e as [n e0 w vs s|t0 n st sec o|c]; simpl.
        -- rewrite <- E4. exact L2.
        -- destruct E4 as [Hs E4]. split; [exact Hs|]. rewrite <- E4. exact L2.
        -- rewrite E4. exact L2.
    + exfalso. destruct (advance_to ts') as [ts2| |]; try discriminate.
      unfold next in H. destruct (advance ts2) as [[[|] ts3]| |]; try discriminate.
      * eapply err_sticky. exact H.
      * unfold interp_finish in H. destruct path'; discriminate.
    + discriminate.
Qed.

Lemma interpret_clean : forall types ts v r, no_eof ts ->
  interpret types (ts ++ [mkTok TEOF v]) = IOk r false ->
  exists items, Derives ts items.
Proof.
  intros types ts v r Hn H. unfold interpret in H.
  destruct ts as [|t ts]; [exists []; constructor|].
  assert (HC : cont types (S (length ((t :: ts) ++ [mkTok TEOF v]))) ((t :: ts) ++ [mkTok TEOF v]) root_block [] false = IOk r false).
  { assert (E : ttype_eqb (ttyp t) TEOF = false).
    { destruct (ttype_eqb (ttyp t) TEOF) eqn:E; [|reflexivity].
      exfalso. apply (Hn t (or_introl eq_refl)). apply ttype_eqb_eq. exact E. }
    unfold cont. cbn [app]. rewrite E. exact H. }
  apply clean_run_events in HC; [|exact Hn]. destruct HC as [l [L1 L2]].
  apply ev_Der in L2. simpl in L2. rewrite L1. exact L2.
Qed.

(** Full correspondence. *)
Lemma interpret_iff : forall types ts v, no_eof ts -> ts <> [] ->
  forall r, interpret types (ts ++ [mkTok TEOF v]) = IOk r false <->
  exists items, Derives ts items /\ r = capplys types items root_block.
Proof.
  intros types ts v Hn Hne r. split; intro H.
  - destruct (interpret_clean _ _ _ _ Hn H) as [items Hd]. exists items. split; [exact Hd|].
    rewrite (interpret_derives types ts items Hd Hne v) in H. inversion H. reflexivity.
  - destruct H as [items [Hd Hr]]. subst r. apply interpret_derives; assumption.
Qed.

Lemma Derives_no_eof : forall ts items, Derives ts items -> no_eof ts.
Proof.
  intros ts items H. induction H as [| n e v vs s rest0 items Hd IH | t n st sec o c body bi rest0 items Hs Hb IHb Hr IHr].
  - intros t [].
  - intros t Ht. simpl in Ht. destruct Ht as [Ht|[Ht|[Ht|Ht]]]; try (subst; discriminate).
    apply in_app_or in Ht. destruct Ht as [Ht|Ht].
    + apply in_map_iff in Ht. destruct Ht as [x [Hx _]]. subst. discriminate.
    + destruct Ht as [Ht|Ht]; [subst; discriminate|apply IH; exact Ht].
  - intros x Hx. simpl in Hx. destruct Hx as [Hx|[Hx|Hx]]; try (subst; discriminate).
    apply in_app_or in Hx. destruct Hx as [Hx|Hx].
    + inversion Hs; subst; simpl in Hx; [contradiction|].
      destruct Hx as [Hx|[Hx|[Hx|[]]]]; subst; discriminate.
    + destruct Hx as [Hx|Hx]; [subst; discriminate|].
      apply in_app_or in Hx. destruct Hx as [Hx|Hx]; [apply IHb; exact Hx|].
      destruct Hx as [Hx|Hx]; [subst; discriminate|apply IHr; exact Hx].
Qed.

(** * Undefined behaviour during error recovery *)
Definition stmt_ender (t : token) : Prop :=
  ttyp t = TEndStatement \/ ttyp t = TBlockStart \/ ttyp t = TBlockEnd.

(** A stream in which EOF occurs exactly once, at the end, right after a token that ends a statement. *)
Definition good (ts : list token) : Prop :=
  exists body t e, ts = body ++ [t; e] /\ no_eof (body ++ [t]) /\ stmt_ender t /\ ttyp e = TEOF.

Lemma good_tail : forall t ts, good (t :: ts) -> good ts \/ (exists e, ts = [e] /\ ttyp e = TEOF /\ stmt_ender t).
Proof.
  intros t ts (body & x & e & E & Hn & Hs & He). destruct body as [|y body].
  - right. simpl in E. inversion E; subst. exists e. auto.
  - left. simpl in E. inversion E; subst. exists body, x, e. split; [reflexivity|]. split; [|auto].
    intros z Hz. apply Hn. right. exact Hz.
Qed.

Lemma good_head : forall t ts, good (t :: ts) -> ttyp t <> TEOF.
Proof.
  intros t ts (body & x & e & E & Hn & Hs & He). destruct body as [|y body]; simpl in E; inversion E; subst.
  - apply Hn. left. reflexivity.
  - apply Hn. left. reflexivity.
Qed.

Lemma good_two : forall ts, good ts -> exists t t' r, ts = t :: t' :: r.
Proof.
  intros ts (body & x & e & E & _). destruct body as [|a [|b body]]; subst; simpl; eauto.
Qed.

(** From a good stream at a token that does not end a statement, expect neither
    runs off the end nor lands on EOF. *)
Definition good_res (s : sres) : Prop :=
  match s with SOk ts _ _ => good ts | SExn ts _ _ => good ts | SUB => False end.

Lemma expect_good : forall ty ts root path k, good ts -> (forall t r, ts = t :: r -> ~ stmt_ender t) ->
  (forall ts', good ts' -> (exists v r, ts' = mkTok ty v :: r) -> good_res (k ts')) ->
  good_res (expect ty ts root path k).
Proof.
  intros ty ts root path k Hg Hne Hk. destruct (good_two _ Hg) as (t & t' & r & E). subst ts.
  assert (Ht := good_head _ _ Hg).
  destruct (good_tail _ _ Hg) as [Hg'|(e & _ & _ & Hs)]; [|exfalso; exact (Hne t _ eq_refl Hs)].
  assert (Ht' := good_head _ _ Hg').
  unfold expect. rewrite advance_step by exact Ht.
  destruct (negb (ttype_eqb (ttyp t') TEOF) && ttype_eqb (ttyp t') ty) eqn:E.
  - apply Hk; [exact Hg'|]. apply andb_true_iff in E. destruct E as [_ E]. apply ttype_eqb_eq in E.
    destruct t' as [a b]. simpl in E. subst. eauto.
  - exact Hg'.
Qed.

Lemma not_ender : forall ty v ts, (exists w r, ts = mkTok ty w :: r) ->
  ty <> TEndStatement -> ty <> TBlockStart -> ty <> TBlockEnd ->
  forall t r, ts = t :: r -> ~ stmt_ender t /\ (v = v :> unit).
Proof.
  intros ty v ts (w & r0 & E) H1 H2 H3 t r E2. rewrite E in E2. inversion E2; subst.
  split; [|reflexivity]. intros [H|[H|H]]; simpl in H; contradiction.
Qed.

Lemma not_ender' : forall ty ts, (exists w r, ts = mkTok ty w :: r) ->
  ty <> TEndStatement -> ty <> TBlockStart -> ty <> TBlockEnd ->
  forall t r, ts = t :: r -> ~ stmt_ender t.
Proof. intros ty ts H H1 H2 H3 t r E. apply (not_ender ty tt ts H H1 H2 H3 t r E). Qed.

Lemma collect_good : forall ts acc, good ts -> (exists v r, ts = mkTok TValue v :: r) ->
  exists ts' vals, collect_values ts acc = Ok (ts', vals) /\ good ts' /\ (exists v r, ts' = mkTok TValue v :: r).
Proof.
  induction ts as [|t ts IH]; intros acc Hg (v & r & E); [discriminate|].
  inversion E; subst t ts. clear E. destruct (good_two _ Hg) as (t0 & t' & r' & E). inversion E; subst t0 r.
  cbn [collect_values ttyp ttype_eqb].
  destruct (ttype_eqb (ttyp t') TValue) eqn:Et.
  - apply IH.
    + destruct (good_tail _ _ Hg) as [Hg'|(e & _ & _ & [Hs|[Hs|Hs]])]; [exact Hg'|discriminate..].
    + apply ttype_eqb_eq in Et. destruct t' as [a b]. simpl in Et. subst. eauto.
  - exists (mkTok TValue v :: t' :: r'), acc. split; [reflexivity|]. split; [exact Hg|eauto].
Qed.

Lemma stmt_good : forall types ts root path, good ts -> (exists b, get_at path root = Some b) ->
  good_res (stmt types ts root path).
Proof.
  intros types ts root path Hg [b Hb]. destruct (good_two _ Hg) as (t & t' & r & E).
  unfold stmt. rewrite E. rewrite <- E. destruct t as [ty v]. cbn [ttyp].
  destruct ty; try exact Hg.
  - unfold stmt_setting. apply expect_good; [exact Hg| |].
    { apply (not_ender' TName); [eauto|discriminate..]. }
    intros ts1 G1 E1. apply expect_good; [exact G1| |].
    { apply (not_ender' TEquals); [exact E1|discriminate..]. }
    intros ts2 G2 E2. destruct (collect_good ts2 [cur_val ts2] G2 E2) as (ts3 & vals & Hc & G3 & E3).
    rewrite Hc. apply expect_good; [exact G3| |].
    { apply (not_ender' TValue); [exact E3|discriminate..]. }
    intros ts4 G4 _. exact G4.
  - unfold stmt_block. apply expect_good; [exact Hg| |].
    { apply (not_ender' TBlockType); [eauto|discriminate..]. }
    intros ts1 G1 (n & r1 & E1). destruct (good_two _ G1) as (a & a' & r2 & Ea).
    rewrite E1 in Ea. inversion Ea; subst a r1.
    assert (Hopen : forall bt nm sec ts, good ts -> (forall t r, ts = t :: r -> ~ stmt_ender t) ->
              good_res (open_block bt nm sec ts root path)).
    { intros bt nm sec ts0 G0 N0. unfold open_block. apply expect_good; [exact G0|exact N0|].
      intros ts5 G5 _. rewrite Hb. destruct (add_sub_block b bt nm sec). exact G5. }
    rewrite E1. cbn [tokent_n ttyp ttype_eqb]. rewrite <- E1.
    destruct (ttype_eqb (ttyp a') TLPar) eqn:El.
    + rewrite E1 at 1. rewrite advance_step by discriminate.
      apply ttype_eqb_eq in El. destruct a' as [x y]. simpl in El. subst x.
      assert (G2 : good (mkTok TLPar y :: r2)).
      { rewrite E1 in G1. destruct (good_tail _ _ G1) as [G'|(e & _ & _ & [Hs|[Hs|Hs]])]; [exact G'|discriminate..]. }
      apply expect_good; [exact G2| |].
      { apply (not_ender' TLPar); [eauto|discriminate..]. }
      intros ts3 G3 E3. apply expect_good; [exact G3| |].
      { apply (not_ender' TName); [exact E3|discriminate..]. }
      intros ts4 G4 E4. apply Hopen; [exact G4|]. apply (not_ender' TRPar); [exact E4|discriminate..].
    + apply Hopen; [exact G1|]. apply (not_ender' TBlockName); [eauto|discriminate..].
  - unfold stmt_end. destruct path; exact Hg.
Qed.

Lemma advance_to_cons : forall t t' r, advance_to (t :: t' :: r) =
  if is_restart (ttyp t') then Ok (t :: t' :: r)
  else if ttype_eqb (ttyp t) TEOF then Ok (t :: t' :: r)
  else if ttype_eqb (ttyp t') TEOF then Ok (t' :: r)
  else advance_to (t' :: r).
Proof. reflexivity. Qed.

(** advance_to from a good stream stays in it, or stops at EOF. *)
Lemma advance_to_good : forall ts, good ts ->
  exists ts', advance_to ts = Ok ts' /\ (good ts' \/ exists e, ts' = [e] /\ ttyp e = TEOF).
Proof.
  induction ts as [|t ts IH]; intro Hg; [destruct (good_two _ Hg) as (a & b & c & E); discriminate|].
  destruct (good_two _ Hg) as (a & t' & r & E). inversion E; subst a ts. clear E.
  rewrite advance_to_cons. destruct (is_restart (ttyp t')); [eauto|].
  assert (Ht := good_head _ _ Hg).
  destruct (ttype_eqb (ttyp t) TEOF) eqn:E1; [apply ttype_eqb_eq in E1; contradiction|].
  destruct (good_tail _ _ Hg) as [Hg'|(e & E & He & Hs)].
  - assert (Ht' := good_head _ _ Hg').
    destruct (ttype_eqb (ttyp t') TEOF) eqn:E2; [apply ttype_eqb_eq in E2; contradiction|].
    apply IH. exact Hg'.
  - inversion E; subst t' r. rewrite He. simpl. exists [e]. split; [reflexivity|]. right. eauto.
Qed.

(** the active block always exists *)
Lemma get_at_removelast : forall p root b, get_at p root = Some b -> exists b', get_at (removelast p) root = Some b'.
Proof.
  induction p as [|i p IH]; intros root b H; [simpl; eauto|].
  destruct p as [|j p]; [simpl; eauto|].
  change (removelast (i :: j :: p)) with (i :: removelast (j :: p)).
  simpl in H |- *. destruct (nth_error (cb_subs root) i) as [c|]; [|discriminate].
  apply (IH c b). exact H.
Qed.

Definition path_ok (path : list nat) (root : cblock) : Prop := exists b, get_at path root = Some b.

Definition path_res (s : sres) : Prop :=
  match s with SOk _ r p => path_ok p r | SExn _ r p => path_ok p r | SUB => True end.

Lemma expect_path : forall ty ts root path k, path_ok path root ->
  (forall ts', path_res (k ts')) -> path_res (expect ty ts root path k).
Proof.
  intros ty ts root path k Hp Hk. unfold expect.
  destruct (advance ts) as [[m ts']| |]; try exact I.
  destruct ts' as [|t r]; [exact I|].
  destruct (m && ttype_eqb (ttyp t) ty); [apply Hk|exact Hp].
Qed.

Lemma path_upd : forall path root f, path_ok path root -> path_ok path (upd_at path f root).
Proof. intros path root f [b Hb]. exists (f b). rewrite get_upd_at, Hb. reflexivity. Qed.

Lemma stmt_path : forall types ts root path, path_ok path root -> path_res (stmt types ts root path).
Proof.
  intros types ts root path Hp. unfold stmt. destruct ts as [|[ty v] ts]; [exact I|]. cbn [ttyp].
  assert (Hopen : forall bt nm sec ts, path_res (open_block bt nm sec ts root path)).
  { intros bt nm sec ts0. unfold open_block. apply expect_path; [exact Hp|]. intros ts1.
    destruct Hp as [b Hb]. rewrite Hb. destruct (add_sub_block b bt nm sec) as [b' i] eqn:Ea.
    simpl. unfold path_ok. rewrite get_at_snoc, get_upd_at, Hb. eapply add_sub_block_get. exact Ea. }
  destruct ty; try exact Hp.
  - unfold stmt_setting. apply expect_path; [exact Hp|]. intro ts1.
    apply expect_path; [exact Hp|]. intro ts2.
    destruct (collect_values ts2 [cur_val ts2]) as [[ts3 vals]| |]; try exact I.
    apply expect_path; [apply path_upd; exact Hp|]. intro ts4. simpl. apply path_upd. exact Hp.
  - unfold stmt_block. apply expect_path; [exact Hp|]. intro ts1.
    destruct (tokent_n ts1) as [k| |]; try exact I.
    destruct (ttype_eqb k TLPar); [|apply Hopen].
    destruct (advance ts1) as [[m ts2]| |]; try exact I.
    apply expect_path; [exact Hp|]. intro ts3. apply expect_path; [exact Hp|]. intro ts4. apply Hopen.
  - unfold stmt_end. destruct path as [|i p]; [exact Hp|].
    destruct Hp as [b Hb]. cbn [path_res]. eapply get_at_removelast. exact Hb.
Qed.

Lemma interp_no_ub : forall types f ts root path err, good ts -> path_ok path root ->
  interp_loop types f ts root path err <> IUB.
Proof.
  intros types f. induction f as [|f IH]; intros ts root path err Hg Hp; [discriminate|].
  rewrite interp_loop_S.
  assert (HN : forall ts' root' path' err', (good ts' \/ exists e, ts' = [e] /\ ttyp e = TEOF) ->
     path_ok path' root' -> next types f ts' root' path' err' <> IUB).
  { intros ts' root' path' err' [Hg'|(e & E & He)] Hp'.
    - destruct (good_two _ Hg') as (t & t' & r & E). subst ts'.
      assert (Ht := good_head _ _ Hg').
      rewrite next_cont by exact Ht. unfold cont.
      destruct (ttype_eqb (ttyp t') TEOF) eqn:E2.
      + unfold interp_finish. destruct path'; discriminate.
      + destruct (good_tail _ _ Hg') as [Hg2|(e & E & He & _)].
        * apply IH; assumption.
        * inversion E; subst. rewrite He in E2. discriminate.
    - subst ts'. unfold next, advance. rewrite He. simpl. unfold interp_finish. destruct path'; discriminate. }
  assert (H1 := stmt_good types ts root path Hg Hp). assert (H2 := stmt_path types ts root path Hp).
  destruct (stmt types ts root path) as [ts' root' path'|ts' root' path'|]; simpl in H1, H2.
  - apply HN; auto.
  - destruct (advance_to_good _ H1) as (ts2 & E & H3). rewrite E. apply HN; assumption.
  - contradiction.
Qed.

Lemma good_of_lex : forall body t v, no_eof (body ++ [t]) -> stmt_ender t -> good ((body ++ [t]) ++ [mkTok TEOF v]).
Proof.
  intros body t v Hn Hs. exists body, t, (mkTok TEOF v). split; [rewrite <- app_assoc; reflexivity|].
  split; [exact Hn|]. split; [exact Hs|reflexivity].
Qed.

(** A name at the very end: the error is found at EOF and recovery reads past it. *)
Lemma interp_ub_name : forall types ts items n v, Derives ts items ->
  interpret types (ts ++ [mkTok TName n; mkTok TEOF v]) = IUB.
Proof.
  intros types ts items n v H.
  destruct (interp_derives types ts items H [mkTok TName n; mkTok TEOF v]
             (S (length (ts ++ [mkTok TName n; mkTok TEOF v])))
             root_block [] false root_block) as [f' [Hf E]].
  - discriminate.
  - reflexivity.
  - lia.
  - unfold interpret. 
    assert (HC : cont types (S (length (ts ++ [mkTok TName n; mkTok TEOF v])))
         (ts ++ [mkTok TName n; mkTok TEOF v]) root_block [] false =
         interp_loop types (S (length (ts ++ [mkTok TName n; mkTok TEOF v])))
         (ts ++ [mkTok TName n; mkTok TEOF v]) root_block [] false).
    { unfold cont. inversion H; subst; reflexivity. }
    rewrite <- HC, E. destruct f' as [|f']; [simpl in Hf; lia|]. reflexivity.
Qed.

(** * The interpreter always finishes *)
Definition len_res (n : nat) (r : sres) : Prop :=
  match r with SOk ts _ _ | SExn ts _ _ => length ts <= n | SUB => True end.

Lemma advance_len : forall ts b ts', advance ts = Ok (b, ts') ->
  length ts' <= length ts /\ (b = true -> length ts' < length ts).
Proof.
  intros ts b ts' H. unfold advance in H. destruct ts as [|t r]; [discriminate|].
  destruct (ttype_eqb (ttyp t) TEOF); [inversion H; subst; split; [lia|discriminate]|].
  destruct r as [|t' r]; [discriminate|]. inversion H; subst. simpl. split; lia.
Qed.

Lemma expect_len : forall ty ts root path k n, length ts <= n ->
  (forall ts', length ts' <= n -> len_res n (k ts')) -> len_res n (expect ty ts root path k).
Proof.
  intros ty ts root path k n Hl Hk. unfold expect. destruct (advance ts) as [[b ts']| |] eqn:E; try exact I.
  apply advance_len in E. destruct ts' as [|t r]; [exact I|].
  destruct (b && ttype_eqb (ttyp t) ty); [apply Hk; lia|simpl in *; lia].
Qed.

Lemma collect_len : forall ts acc ts' v, collect_values ts acc = Ok (ts', v) -> length ts' <= length ts.
Proof.
  induction ts as [|t r IH]; intros acc ts' v H; simpl in H; [discriminate|].
  destruct (ttype_eqb (ttyp t) TEOF); [inversion H; subst; lia|].
  destruct r as [|t' r']; [discriminate|].
  destruct (ttype_eqb (ttyp t') TValue); [apply IH in H; simpl in *; lia|inversion H; subst; simpl; lia].
Qed.

Lemma advance_to_len : forall ts ts', advance_to ts = Ok ts' -> length ts' <= length ts.
Proof.
  induction ts as [|t r IH]; intros ts' H; [discriminate|]. destruct r as [|t' r']; [discriminate|].
  rewrite advance_to_cons in H. destruct (is_restart (ttyp t')); [inversion H; subst; lia|].
  destruct (ttype_eqb (ttyp t) TEOF); [inversion H; subst; lia|].
  destruct (ttype_eqb (ttyp t') TEOF); [inversion H; subst; simpl; lia|].
  apply IH in H. simpl in *. lia.
Qed.

Lemma stmt_len : forall types ts root path, len_res (length ts) (stmt types ts root path).
Proof.
  intros types ts root path. unfold stmt. destruct ts as [|t r]; [exact I|].
  remember (length (t :: r)) as n eqn:En. assert (Hl : length (t :: r) <= n) by lia. clear En.
  assert (Hopen : forall bt nm sec ts', length ts' <= n -> len_res n (open_block bt nm sec ts' root path)).
  { intros bt nm sec ts' H. unfold open_block. apply expect_len; [exact H|]. intros ts2 H2.
    destruct (get_at path root) as [b|]; [|exact I]. destruct (add_sub_block b bt nm sec). exact H2. }
  destruct (ttyp t); try exact Hl.
  - unfold stmt_setting. apply expect_len; [exact Hl|]. intros ts1 H1. apply expect_len; [exact H1|]. intros ts2 H2.
    destruct (collect_values ts2 [cur_val ts2]) as [[ts3 v]| |] eqn:Ec; try exact I.
    apply collect_len in Ec. apply expect_len; [lia|]. intros ts4 H4. exact H4.
  - unfold stmt_block. apply expect_len; [exact Hl|]. intros ts1 H1.
    destruct (tokent_n ts1) as [ty| |]; try exact I.
    destruct (ttype_eqb ty TLPar); [|apply Hopen; exact H1].
    destruct (advance ts1) as [[b ts2]| |] eqn:E; try exact I. apply advance_len in E.
    apply expect_len; [lia|]. intros ts3 H3. apply expect_len; [exact H3|]. intros ts4 H4. apply Hopen. exact H4.
  - unfold stmt_end. destruct path; exact Hl.
Qed.

Lemma interp_no_fuel : forall types f ts root path err, length ts < f -> interp_loop types f ts root path err <> IFuel.
Proof.
  intros types f. induction f as [|f IH]; intros ts root path err Hl; [lia|].
  rewrite interp_loop_S. assert (Hs := stmt_len types ts root path).
  assert (Hnext : forall ts' root' path' err', length ts' <= length ts ->
     match advance ts' with
     | Ok (true, ts'') => interp_loop types f ts'' root' path' err'
     | Ok (false, _) => interp_finish root' path' err'
     | _ => IUB
     end <> IFuel).
  { intros ts' root' path' err' H. destruct (advance ts') as [[[|] ts'']| |] eqn:E; try discriminate.
    - apply advance_len in E. apply IH. destruct E as [_ E]. specialize (E eq_refl). lia.
    - unfold interp_finish. destruct path'; discriminate. }
  destruct (stmt types ts root path) as [ts' root' path'|ts' root' path'|]; [| |discriminate].
  - apply Hnext. exact Hs.
  - destruct (advance_to ts') as [ts''| |] eqn:E; try discriminate. apply advance_to_len in E. apply Hnext. simpl in Hs. lia.
Qed.

Lemma interpret_total : forall types ts, interpret types ts <> IFuel.
Proof. intros types ts. apply interp_no_fuel. lia. Qed.
