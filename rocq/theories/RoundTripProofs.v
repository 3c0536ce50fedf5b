From Verif Require Import Base ConfigModel LexSpec LexProofs InterpSpec InterpProofs.

Fixpoint atree_ind' (P : atree -> Prop)
  (H : forall ty n sec sets subs, Forall P subs -> P (AT ty n sec sets subs)) (t : atree) : P t :=
  match t with
  | AT ty n sec sets subs =>
      H ty n sec sets subs
        ((fix go (l : list atree) : Forall P l :=
            match l with [] => Forall_nil P | b :: r => Forall_cons b (atree_ind' P H b) (go r) end) subs)
  end.

Fixpoint item_ind' (P : item -> Prop) (HS : forall n v, P (ISet n v))
  (HB : forall ty n sec body, Forall P body -> P (IBlk ty n sec body)) (i : item) : P i :=
  match i with
  | ISet n v => HS n v
  | IBlk ty n sec body =>
      HB ty n sec body
        ((fix go (l : list item) : Forall P l :=
            match l with [] => Forall_nil P | b :: r => Forall_cons b (item_ind' P HS HB b) (go r) end) body)
  end.

(** Items whose words can be told apart again. *)
Inductive item_ok (types : list str) : item -> Prop :=
| ok_set : forall n v vs, name_ok types n -> (forall x, In x (v :: vs) -> plain x) ->
    item_ok types (ISet n (v :: vs))
| ok_blk : forall ty n sec body, In ty types -> plain ty -> plain n ->
    (sec = [] \/ name_ok types sec) -> Forall (item_ok types) body ->
    item_ok types (IBlk ty n sec body).

Definition boundary (p : option ttype) : Prop :=
  p = None \/ p = Some TEndStatement \/ p = Some TBlockStart \/ p = Some TBlockEnd.

Lemma kind_name : forall types p s, boundary p \/ p = Some TLPar -> name_ok types s -> word_kind types p s = TName.
Proof.
  intros types p s Hp [[_ H1] H2]. unfold word_kind. rewrite H1.
  destruct (in_dec (list_eq_dec ascii_dec) s types) as [Hi|Hi]; [contradiction|].
  destruct Hp as [[Hp|[Hp|[Hp|Hp]]]|Hp]; subst; reflexivity.
Qed.

Lemma kind_type : forall types p s, boundary p -> plain s -> In s types -> word_kind types p s = TBlockType.
Proof.
  intros types p s Hp [_ H1] H2. unfold word_kind. rewrite H1.
  destruct (in_dec (list_eq_dec ascii_dec) s types) as [Hi|Hi]; [|contradiction].
  destruct Hp as [Hp|[Hp|[Hp|Hp]]]; subst; reflexivity.
Qed.

Lemma classify_cons : forall types p w r, classify types p (w :: r) =
  mkTok (word_kind types p w) w :: classify types (Some (word_kind types p w)) r.
Proof. reflexivity. Qed.

Lemma classify_values : forall types vs p rest, (p = Some TEquals \/ p = Some TValue) ->
  (forall x, In x vs -> plain x) ->
  classify types p (vs ++ str_of ";" :: rest) =
  map (mkTok TValue) vs ++ mkTok TEndStatement (str_of ";") :: classify types (Some TEndStatement) rest.
Proof.
  intros types vs. induction vs as [|v vs IH]; intros p rest Hp Hv.
  - reflexivity.
  - assert (Hk : word_kind types p v = TValue).
    { unfold word_kind. destruct (Hv v (or_introl eq_refl)) as [_ H]. rewrite H.
      destruct Hp as [Hp|Hp]; subst; reflexivity. }
    cbn [app classify map]. rewrite Hk. f_equal. apply IH; [right; reflexivity|].
    intros x Hx. apply Hv. right. exact Hx.
Qed.

Lemma classify_items : forall types k l, list_sum (map item_size l) <= k -> Forall (item_ok types) l ->
  forall p, boundary p -> exists toks p', boundary p' /\ Derives toks l /\ (l <> [] -> toks <> []) /\
    forall rest, classify types p (items_words l ++ rest) = toks ++ classify types p' rest.
Proof.
  intros types k. induction k as [|k IH]; intros l Hk Hok p Hp.
  - destruct l as [|[n v|ty n sec body] l]; simpl in Hk; try lia.
    exists [], p. split; [exact Hp|]. split; [constructor|]. split; [contradiction|reflexivity].
  - destruct l as [|i l].
    { exists [], p. split; [exact Hp|]. split; [constructor|]. split; [contradiction|reflexivity]. }
    apply Forall_cons_iff in Hok. destruct Hok as [Hi Hl].
    destruct i as [n v|ty n sec body]; inversion Hi as [? v0 vs N1 N2 | ? ? ? ? M1 M2 M3 M4 M5]; subst.
    + simpl in Hk. destruct (IH l ltac:(lia) Hl (Some TEndStatement)) as (toks & p' & P1 & P2 & P3 & P4).
      { right; left; reflexivity. }
      exists (mkTok TName n :: mkTok TEquals (str_of "=") :: map (mkTok TValue) (v0 :: vs)
               ++ mkTok TEndStatement (str_of ";") :: toks), p'.
      split; [exact P1|]. split; [constructor; exact P2|]. split; [discriminate|]. intro rest.
      unfold items_words. cbn [flat_map item_words]. fold (items_words l).
      rewrite <- !app_assoc. cbn [app]. rewrite 2 classify_cons.
      rewrite kind_name; [|left; exact Hp|assumption].
      change (word_kind types (Some TName) (str_of "=")) with TEquals.
      f_equal. f_equal.
      rewrite <- app_assoc. cbn [app].
      change (v0 :: vs ++ str_of ";" :: items_words l ++ rest)
        with ((v0 :: vs) ++ str_of ";" :: (items_words l ++ rest)).
      rewrite classify_values; [|left; reflexivity|assumption].
      rewrite P4. cbn [map app]. f_equal. rewrite <- app_assoc. reflexivity.
    + simpl in Hk. destruct (IH l ltac:(lia) Hl (Some TBlockEnd)) as (toks & p' & P1 & P2 & P3 & P4).
      { right; right; right; reflexivity. }
      destruct (IH body ltac:(lia) M5 (Some TBlockStart)) as (btoks & bp & B1 & B2 & B3 & B4).
      { right; right; left; reflexivity. }
      set (st := match sec with [] => [] | _ => [mkTok TLPar (str_of "("); mkTok TName sec; mkTok TRPar (str_of ")")] end).
      exists (mkTok TBlockType ty :: mkTok TBlockName n :: st ++
              mkTok TBlockStart (str_of "{") :: btoks ++ mkTok TBlockEnd (str_of "}") :: toks), p'.
      split; [exact P1|]. split.
      { apply D_blk; [|exact B2|exact P2]. unfold st. destruct sec; constructor. }
      split; [discriminate|]. intro rest.
      unfold items_words. cbn [flat_map item_words]. fold (items_words l). fold (items_words body).
      rewrite <- !app_assoc. cbn [app]. rewrite 2 classify_cons.
      rewrite kind_type by assumption.
      assert (Hn : word_kind types (Some TBlockType) n = TBlockName).
      { unfold word_kind. destruct M3 as [_ M3]. rewrite M3. reflexivity. }
      rewrite Hn. f_equal. f_equal.
      assert (Hrest : forall q, classify types q (str_of "{" :: items_words body ++ str_of "}" :: items_words l ++ rest)
         = mkTok TBlockStart (str_of "{") :: btoks ++ mkTok TBlockEnd (str_of "}") :: toks ++ classify types p' rest).
      { intro q. rewrite classify_cons. change (word_kind types q (str_of "{")) with TBlockStart. f_equal.
        rewrite B4. f_equal. rewrite classify_cons.
        change (word_kind types bp (str_of "}")) with TBlockEnd. f_equal. apply P4. }
      destruct sec as [|c0 sec0].
      * unfold st. cbn [app]. rewrite <- app_assoc. cbn [app]. rewrite Hrest. rewrite <- app_assoc. reflexivity.
      * unfold st. destruct M4 as [M4|M4]; [discriminate|].
        cbn [app]. rewrite 3 classify_cons.
        change (word_kind types (Some TBlockName) (str_of "(")) with TLPar.
        rewrite kind_name; [|right; reflexivity|exact M4].
        change (word_kind types (Some TName) (str_of ")")) with TRPar.
        rewrite <- app_assoc. cbn [app]. rewrite Hrest. rewrite <- app_assoc. reflexivity.
Qed.

(** Type identifiers. *)
Lemma stbt_from : forall types k i, NoDup types -> i < length types ->
  string_to_block_type_from k types (nth i types []) = k + i.
Proof.
  induction types as [|t types IH]; intros k i Hn Hi; simpl in Hi; [lia|].
  inversion Hn; subst. destruct i as [|i]; simpl.
  - rewrite str_eqb_refl. lia.
  - destruct (str_eqb t (nth i types [])) eqn:E.
    + exfalso. apply str_eqb_eq in E. apply H1. rewrite E. apply nth_In. lia.
    + rewrite IH; [lia|assumption|lia].
Qed.

Lemma stbt_nth : forall types i, NoDup types -> i < length types ->
  string_to_block_type types (nth i types []) = i.
Proof. intros types i Hn Hi. unfold string_to_block_type. rewrite stbt_from by assumption. reflexivity. Qed.

(** Rebuilding a tree from its items. *)
Lemma put_set_fresh : forall sets n v, ~ In n (map fst sets) -> put_set sets n v = sets ++ [(n, v)].
Proof.
  induction sets as [|[m w] r IH]; intros n v H; simpl; [reflexivity|].
  destruct (str_eqb m n) eqn:E.
  - exfalso. apply H. left. apply str_eqb_eq. exact E.
  - f_equal. apply IH. intro Hc. apply H. right. exact Hc.
Qed.

Lemma put_sub_fresh : forall subs ty n sec f, ~ In (ty, n) (map (fun b => (at_type b, at_name b)) subs) ->
  put_sub subs ty n sec f = subs ++ [f (AT ty n sec [] [])].
Proof.
  induction subs as [|b r IH]; intros ty n sec f H; simpl; [reflexivity|].
  destruct (Nat.eqb (at_type b) ty && str_eqb (at_name b) n) eqn:E.
  - exfalso. apply H. left. apply andb_true_iff in E. destruct E as [E1 E2].
    apply Nat.eqb_eq in E1. apply str_eqb_eq in E2. subst. reflexivity.
  - f_equal. apply IH. intro Hc. apply H. right. exact Hc.
Qed.

Lemma apply_items_app : forall types a b t, apply_items types (a ++ b) t = apply_items types b (apply_items types a t).
Proof.
  intros types a. induction a as [|i a IH]; intros b t; [reflexivity|].
  cbn [app]. rewrite !apply_items_cons. apply IH.
Qed.

Lemma apply_sets : forall types sets done_ ty n sec subs, NoDup (map fst (done_ ++ sets)) ->
  apply_items types (map (fun p => ISet (fst p) (snd p)) sets) (AT ty n sec done_ subs) =
  AT ty n sec (done_ ++ sets) subs.
Proof.
  intros types sets. induction sets as [|[m v] r IH]; intros done_ ty n sec subs H.
  - rewrite app_nil_r. reflexivity.
  - cbn [map fst snd]. rewrite apply_items_cons. cbn [apply_item].
    rewrite put_set_fresh.
    + rewrite IH.
      * rewrite <- app_assoc. reflexivity.
      * rewrite <- app_assoc. exact H.
    + rewrite map_app in H. simpl in H. apply NoDup_remove_2 in H.
      intro Hc. apply H. apply in_or_app. left. exact Hc.
Qed.

Lemma apply_subs : forall types, NoDup types -> forall subs done_ ty n sec sets,
  (forall b, In b subs -> at_type b < length types) ->
  (forall b, In b subs -> apply_items types (tree_items types b) (AT (at_type b) (at_name b) (at_sec b) [] []) = b) ->
  NoDup (map (fun b => (at_type b, at_name b)) (done_ ++ subs)) ->
  apply_items types (map (fun b => IBlk (nth (at_type b) types []) (at_name b) (at_sec b) (tree_items types b)) subs)
              (AT ty n sec sets done_) = AT ty n sec sets (done_ ++ subs).
Proof.
  intros types Ht subs. induction subs as [|b r IH]; intros done_ ty n sec sets Hlt Hb H.
  - rewrite app_nil_r. reflexivity.
  - cbn [map]. rewrite apply_items_cons, apply_blk.
    rewrite stbt_nth; [|exact Ht|apply Hlt; left; reflexivity].
    rewrite put_sub_fresh.
    + rewrite Hb by (left; reflexivity). rewrite IH.
      * rewrite <- app_assoc. reflexivity.
      * intros x Hx. apply Hlt. right. exact Hx.
      * intros x Hx. apply Hb. right. exact Hx.
      * rewrite <- app_assoc. exact H.
    + rewrite map_app in H. simpl in H. apply NoDup_remove_2 in H.
      intro Hc. apply H. apply in_or_app. left. exact Hc.
Qed.

Lemma rebuild : forall types, NoDup types -> forall t, wf_tree types t ->
  apply_items types (tree_items types t) (AT (at_type t) (at_name t) (at_sec t) [] []) = t.
Proof.
  intros types Ht t. induction t as [ty n sec sets subs IH] using atree_ind'. intro Hwf.
  inversion Hwf as [? ? ? ? ? W1 W2 W3 W4 W5]; subst. cbn [tree_items at_type at_name at_sec].
  rewrite apply_items_app, apply_sets by assumption.
  rewrite app_nil_l. apply apply_subs; try assumption.
  - intros b Hb. apply W4. exact Hb.
  - intros b Hb. rewrite Forall_forall in IH, W5. apply IH; [exact Hb|]. apply W5. exact Hb.
Qed.

Lemma tree_items_ok : forall types t, wf_tree types t -> Forall (item_ok types) (tree_items types t).
Proof.
  intros types t. induction t as [ty n sec sets subs IH] using atree_ind'. intro Hwf.
  inversion Hwf as [? ? ? ? ? W1 W2 W3 W4 W5]; subst. cbn [tree_items]. apply Forall_app. split.
  - apply Forall_forall. intros i Hi. apply in_map_iff in Hi. destruct Hi as [[m vs] [E Hin]]. subst i.
    destruct (W2 m vs Hin) as [N1 [N2 N3]]. simpl. destruct vs as [|v vs]; [contradiction|].
    constructor; assumption.
  - apply Forall_forall. intros i Hi. apply in_map_iff in Hi. destruct Hi as [b [E Hin]]. subst i.
    destruct (W4 b Hin) as [N1 [N2 [N3 N4]]]. rewrite Forall_forall in IH, W5.
    constructor; try assumption.
    + apply nth_In. exact N1.
    + apply IH; [exact Hin|]. apply W5. exact Hin.
Qed.

Lemma script_round_trip : forall types fs d t l tail,
  NoDup types -> wf_tree types t -> is_root t -> tree_items types t <> [] ->
  layout_ok l -> Forall gap_ok tail -> no_includes l ->
  layout_words l = items_words (tree_items types t) ->
  exists root, from_string types fs (S d) (layout_text l ++ gaps_text tail) = FOk root false /\ erase root = t.
Proof.
  intros types fs d t l tail Ht Hwf (R1 & R2 & R3) Hne Hl Htail Hn Hw.
  destruct (lex_words types fs l tail d Hl Htail Hn) as [pw Hlex].
  destruct (classify_items types _ (tree_items types t) (le_n _) (tree_items_ok types t Hwf) None)
    as (toks & p' & P1 & P2 & P3 & P4).
  { left. reflexivity. }
  specialize (P4 []). rewrite app_nil_r in P4. cbn [classify] in P4. rewrite app_nil_r in P4.
  unfold from_string. rewrite Hlex, Hw, P4.
  unfold eof_token. rewrite (interpret_derives types toks _ P2 (P3 Hne)).
  eexists. split; [reflexivity|]. rewrite erase_capplys. cbn [erase root_block map].
  rewrite <- (rebuild types Ht t Hwf) at 2. rewrite R1, R2, R3. reflexivity.
Qed.

(** Every well-formed tree whose words contain no NUL and no quote can be written. *)
Definition word_elem (w : str) : elem :=
  match punct_kind w with Some _ => match w with c :: _ => EPunct c | [] => EQuoted [] end | None => EQuoted w end.

Lemma punct_kind_inv : forall w k, punct_kind w = Some k -> exists c, w = [c] /\ punct_char c.
Proof.
  intros w k H. destruct w as [|c [|x w]]; simpl in H; try discriminate.
  exists c. split; [reflexivity|]. unfold punct_char.
  destruct (Ascii.eqb c "="%char) eqn:E1; [apply Ascii.eqb_eq in E1; subst; simpl; tauto|].
  destruct (Ascii.eqb c "("%char) eqn:E2; [apply Ascii.eqb_eq in E2; subst; simpl; tauto|].
  destruct (Ascii.eqb c ")"%char) eqn:E3; [apply Ascii.eqb_eq in E3; subst; simpl; tauto|].
  destruct (Ascii.eqb c "{"%char) eqn:E4; [apply Ascii.eqb_eq in E4; subst; simpl; tauto|].
  destruct (Ascii.eqb c "}"%char) eqn:E5; [apply Ascii.eqb_eq in E5; subst; simpl; tauto|].
  destruct (Ascii.eqb c ";"%char) eqn:E6; [apply Ascii.eqb_eq in E6; subst; simpl; tauto|].
  discriminate.
Qed.

Lemma words_layout : forall ws,
  (forall w, In w ws -> w <> [] /\ forall c, In c w -> c <> cNUL /\ c <> cQUOTE) ->
  exists l, layout_ok l /\ no_includes l /\ layout_words l = ws.
Proof.
  intros ws H. exists (map (fun w => ([], word_elem w)) ws).
  assert (G : forall b, (b = false) -> layout_ok_from b (map (fun w => ([], word_elem w)) ws) /\
     no_includes (map (fun w => (@nil gap, word_elem w)) ws) /\
     layout_words (map (fun w => ([], word_elem w)) ws) = ws).
  { induction ws as [|w ws IH]; intros b Hb.
    - split; [exact I|]. split; [intros g e []|reflexivity].
    - destruct (H w (or_introl eq_refl)) as [W1 W2].
      assert (Hw : elem_ok (word_elem w) /\ is_bare (word_elem w) = false /\ elem_word (word_elem w) = [w]
                   /\ forall n, word_elem w <> EInclude n).
      { unfold word_elem. destruct (punct_kind w) as [k|] eqn:Ek.
        - apply punct_kind_inv in Ek. destruct Ek as [c [Ec Hc]]. subst w. simpl. repeat split; try exact Hc. discriminate.
        - simpl. split; [exact W2|]. split; [reflexivity|]. split; [destruct w; [contradiction|reflexivity]|discriminate]. }
      destruct Hw as (A1 & A2 & A3 & A4).
      destruct (IH (fun w0 Hw0 => H w0 (or_intror Hw0)) (is_bare (word_elem w)) A2) as (B1 & B2 & B3).
      cbn [map]. split.
      + cbn [layout_ok_from]. split; [constructor|]. split; [exact A1|]. split; [intros C1 C2; congruence|exact B1].
      + split.
        * intros g e [Hin|Hin]; [inversion Hin; subst; exact A4|apply (B2 g e Hin)].
        * unfold layout_words in *. cbn [flat_map snd]. rewrite A3, B3. reflexivity. }
  destruct (G false eq_refl) as (G1 & G2 & G3). auto.
Qed.
