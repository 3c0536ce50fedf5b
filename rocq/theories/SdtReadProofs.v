(** Lemmas about the SDT loader on arbitrary texts and about the read calls. *)
From Verif Require Import Base SettingsModel SettingsProofs SdtModel NumText DoubleText SdtSpec SdtProofs.
From Coq Require Import ZArith QArith.
Local Open Scope Z_scope.

(** * Specification vocabulary *)

(** The line declares_by a matrix: the word @matrix, a name and two sizes can be extracted. *)
Definition declares_by (line : str) (name : str) (rows cols : Z) : Prop :=
  exists s1 s2 s3 s4, get_word line = Some (str_of "@matrix", s1) /\ get_word s1 = Some (name, s2) /\
    get_u64 s2 = Some (rows, s3) /\ get_u64 s3 = Some (cols, s4).

(** At least one row, and as many rows and columns as announced. *)
Definition proper (m : matrix) : Prop :=
  1 <= m_nrows m /\ 0 <= m_ncols m /\ Z.of_nat (length (m_rows m)) = m_nrows m /\
  forall r, In r (m_rows m) -> Z.of_nat (length r) = m_ncols m.
Definition proper_store (st : store) : Prop := forall n m, find n (st_mats st) = Some m -> proper m.

(** The calls that release the storage of the variable they read. *)
Definition destroys (c : rcall) : option str :=
  match c with
  | RList n | RScalar n | RInts _ n | RInt _ n => Some n
  | _ => None
  end.
(** The variable whose numbers a call looks at. *)
Definition looks_at (c : rcall) : option str :=
  match c with
  | RDoubles n | RList n | RScalar n | RInts _ n | RInt _ n | RVec n | RIntVec _ n => Some n
  | RAttr d n => Some (d ++ str_of "_" ++ n)
  | RHas _ | RString _ | RAttrString _ _ => None
  end.
(** State of the reader after a sequence of calls. *)
Definition after (r : reader) (cs : list rcall) : reader := fold_left (fun r c => snd (do_read r c)) cs r.
Definition result (r : reader) (c : rcall) : outcome rvalue := fst (do_read r c).

(** * Loading arbitrary texts *)
Section Any.
Variable rnd : Q -> option Q.
Variable mem : Z.

Lemma get_u64_range : forall s z r, get_u64 s = Some (z, r) -> 0 <= z < 2 ^ 64.
Proof.
  intros s z r H. unfold get_u64, sto_unsigned64 in H.
  destruct (strto s) as [[[neg m] rest]|] eqn:E; [|discriminate].
  apply strto_inv in E. destruct E as (ws & sg & ds & _ & _ & _ & _ & D & F & _).
  assert (Hm : 0 <= m) by (subst m; apply (decimal_from_nonneg ds 0); [lia|exact D]).
  destruct (m <? 2 ^ 64) eqn:L; [|discriminate]. apply Z.ltb_lt in L. inversion H; subst.
  destruct neg; [apply Z.mod_pos_bound; reflexivity|lia].
Qed.

Lemma load_row_safe : forall n alloc idx s, idx + Z.of_nat n <= alloc -> load_row rnd alloc idx n s <> UB.
Proof.
  induction n as [|n IH]; intros alloc idx s H; [discriminate|]. rewrite load_row_S.
  replace (alloc <=? idx) with false by (symmetry; apply Z.leb_gt; lia).
  destruct (get_double rnd s) as [[v r]|]; [|discriminate].
  assert (B := IH alloc (idx + 1) r ltac:(lia)). destruct (load_row rnd alloc (idx + 1) n r); cbn [obind]; congruence.
Qed.
Lemma load_row_length : forall n alloc idx s l, load_row rnd alloc idx n s = Ok l -> length l = n.
Proof.
  induction n as [|n IH]; intros alloc idx s l H; [inversion H; reflexivity|]. rewrite load_row_S in H.
  destruct (alloc <=? idx); [discriminate|]. destruct (get_double rnd s) as [[v r]|]; [|discriminate].
  destruct (load_row rnd alloc (idx + 1) n r) as [l'| |] eqn:E; cbn [obind] in H; try discriminate.
  inversion H; subst. cbn [length]. f_equal. apply (IH _ _ _ _ E).
Qed.
Lemma load_rows_S : forall alloc idx k nc ls, load_rows rnd alloc idx (S k) nc ls =
  obind (load_row rnd alloc idx nc (hd [] ls)) (fun row =>
  obind (load_rows rnd alloc (idx + Z.of_nat nc) k nc (tl ls)) (fun p => Ok (row :: fst p, snd p))).
Proof. intros. destruct ls; reflexivity. Qed.
Lemma load_rows_safe : forall n nc alloc idx ls, idx + Z.of_nat n * Z.of_nat nc <= alloc ->
  load_rows rnd alloc idx n nc ls <> UB.
Proof.
  induction n as [|n IH]; intros nc alloc idx ls H; [discriminate|]. rewrite load_rows_S.
  assert (A := load_row_safe nc alloc idx (hd [] ls) ltac:(nia)).
  destruct (load_row rnd alloc idx nc (hd [] ls)); cbn [obind]; try congruence.
  assert (B := IH nc alloc (idx + Z.of_nat nc) (tl ls) ltac:(lia)).
  destruct (load_rows rnd alloc (idx + Z.of_nat nc) n nc (tl ls)); cbn [obind]; congruence.
Qed.
Lemma load_rows_shape : forall n nc alloc idx ls p, load_rows rnd alloc idx n nc ls = Ok p ->
  length (fst p) = n /\ forall r, In r (fst p) -> length r = nc.
Proof.
  induction n as [|n IH]; intros nc alloc idx ls p H.
  - inversion H; subst. split; [reflexivity|intros r []].
  - rewrite load_rows_S in H.
    destruct (load_row rnd alloc idx nc (hd [] ls)) as [row| |] eqn:E1; cbn [obind] in H; try discriminate.
    destruct (load_rows rnd alloc (idx + Z.of_nat nc) n nc (tl ls)) as [q| |] eqn:E2; cbn [obind] in H; try discriminate.
    inversion H; subst. cbn [fst length]. destruct (IH _ _ _ _ _ E2) as [L R]. split; [rewrite L; reflexivity|].
    intros r [Hr|Hr]; [subst r; apply (load_row_length _ _ _ _ _ E1)|apply R; exact Hr].
Qed.

Lemma load_matrix_safe : forall a b ls, 0 < a -> 0 <= b -> a * b < 2 ^ 64 -> load_matrix rnd mem a b ls <> UB.
Proof.
  intros a b ls Ha Hb H. unfold load_matrix.
  destruct (mem <? a); [discriminate|]. destruct (mem <? (a * b) mod 2 ^ 64); [discriminate|].
  replace (a =? 0) with false by (symmetry; apply Z.eqb_neq; lia).
  rewrite Z.mod_small by nia.
  assert (B := load_rows_safe (Z.to_nat a) (Z.to_nat b) (a * b) 0 ls). rewrite !Z2Nat.id in B by lia.
  specialize (B ltac:(lia)). destruct (load_rows _ _ _ _ _ _); cbn [obind]; congruence.
Qed.
Lemma load_matrix_proper : forall a b ls m r, 0 <= a -> 0 <= b -> load_matrix rnd mem a b ls = Ok (m, r) -> proper m.
Proof.
  intros a b ls m r Ha Hb H. unfold load_matrix in H.
  destruct (mem <? a); [discriminate|]. destruct (mem <? (a * b) mod 2 ^ 64); [discriminate|].
  destruct (a =? 0) eqn:E0; [discriminate|]. apply Z.eqb_neq in E0.
  destruct (load_rows _ _ _ _ _ _) as [p| |] eqn:E; cbn [obind] in H; try discriminate.
  inversion H; subst. apply load_rows_shape in E. destruct E as [L R].
  unfold proper. cbn [m_nrows m_ncols m_rows]. split; [lia|]. split; [lia|]. split; [lia|].
  intros x Hx. rewrite (R x Hx). lia.
Qed.

(** One iteration. *)
Inductive step_case (type : str) (ls : list str) (st : store) (k : str -> list str -> store -> option (outcome store))
  : option (outcome store) -> Prop :=
| sc_end : ls = [] -> step_case type ls st k (Some (Ok st))
| sc_skip : forall ls', ls = [] :: ls' -> step_case type ls st k (k type ls' st)
| sc_throw : ls <> [] -> step_case type ls st k (Some Throw)
| sc_mat : forall line ls' name a b m ls'', ls = line :: ls' -> declares_by line name a b ->
    load_matrix rnd mem a b ls' = Ok (m, ls'') ->
    step_case type ls st k (k (str_of "@matrix") ls'' (Store (emplace name m (st_mats st)) (st_strs st)))
| sc_mat_ub : forall line ls' name a b, ls = line :: ls' -> declares_by line name a b ->
    load_matrix rnd mem a b ls' = UB -> step_case type ls st k (Some UB)
| sc_str : forall line ls' name v ls'', ls = line :: ls' -> load_string ls' = (v, ls'') ->
    step_case type ls st k (k (str_of "@string") ls'' (Store (st_mats st) (emplace name v (st_strs st)))).

Lemma get_word_nil : get_word [] = None. Proof. reflexivity. Qed.

Lemma load_step_case : forall k type ls st, step_case type ls st k (load_step rnd mem k type ls st).
Proof.
  intros k type ls st. unfold load_step. destruct ls as [|line ls']; [apply sc_end; reflexivity|].
  destruct line as [|c line]; [apply (sc_skip _ _ _ _ ls'); reflexivity|].
  set (ln := c :: line).
  destruct (get_word ln) as [[w s]|] eqn:W.
  2:{ destruct (str_eqb type (str_of "@matrix")); [apply sc_throw; discriminate|].
      destruct (str_eqb type (str_of "@string")); apply sc_throw; discriminate. }
  destruct (str_eqb_spec w (str_of "@matrix")) as [E|E].
  - subst w. destruct (get_word s) as [[name s1]|] eqn:W1; [|apply sc_throw; discriminate].
    destruct (get_u64 s1) as [[a s2]|] eqn:G1; [|apply sc_throw; discriminate].
    destruct (get_u64 s2) as [[b s3]|] eqn:G2; [|apply sc_throw; discriminate].
    assert (D : declares_by ln name a b) by (exists s, s1, s2, s3; auto).
    destruct (load_matrix rnd mem a b ls') as [[m ls'']| |] eqn:L.
    + apply (sc_mat _ _ _ _ ln ls' name a b m ls''); auto.
    + apply sc_throw; discriminate.
    + apply (sc_mat_ub _ _ _ _ ln ls' name a b); auto.
  - destruct (str_eqb_spec w (str_of "@string")) as [E2|E2]; [|apply sc_throw; discriminate].
    subst w. destruct (get_word s) as [[name s1]|] eqn:W1; [|apply sc_throw; discriminate].
    destruct (get_u64 s1) as [[a s2]|] eqn:G1; [|apply sc_throw; discriminate].
    destruct (load_string ls') as [v ls''] eqn:L.
    apply (sc_str _ _ _ _ ln ls' name v ls''); auto.
Qed.

Lemma load_rows_incl : forall n alloc idx nc ls p, load_rows rnd alloc idx n nc ls = Ok p -> incl (snd p) ls.
Proof.
  induction n as [|n IH]; intros alloc idx nc ls p H.
  - inversion H; subst. apply incl_refl.
  - rewrite load_rows_S in H. destruct (load_row _ _ _ _ _) as [row| |]; cbn [obind] in H; try discriminate.
    destruct (load_rows _ _ _ _ _ (tl ls)) as [q| |] eqn:E; cbn [obind] in H; try discriminate.
    inversion H; subst. cbn [snd]. apply IH in E. intros x Hx. apply E in Hx. destruct ls; [exact Hx|right; exact Hx].
Qed.
Lemma load_matrix_incl : forall a b ls m r, load_matrix rnd mem a b ls = Ok (m, r) -> incl r ls.
Proof.
  intros a b ls m r H. unfold load_matrix in H.
  destruct (mem <? a); [discriminate|]. destruct (mem <? (a * b) mod 2 ^ 64); [discriminate|].
  destruct (a =? 0); [discriminate|].
  destruct (load_rows _ _ _ _ _ _) as [p| |] eqn:E; cbn [obind] in H; try discriminate.
  inversion H; subst. apply (load_rows_incl _ _ _ _ _ _ E).
Qed.
Lemma load_string_incl : forall ls v r, load_string ls = (v, r) -> incl r ls.
Proof.
  intros ls v r H. unfold load_string in H. destruct ls; inversion H; subst; [apply incl_refl|].
  apply incl_tl, incl_refl.
Qed.

Lemma load_loop_ub : forall f type ls st, load_loop rnd mem f type ls st = Some UB ->
  exists line name a b, In line ls /\ declares_by line name a b /\ (a = 0 \/ 2 ^ 64 <= a * b).
Proof.
  induction f as [|f IH]; intros type ls st H; [discriminate|]. rewrite load_loop_step in H.
  destruct (load_step_case (load_loop rnd mem f) type ls st)
    as [E|ls' E|E|line ls' name a b m ls'' E D L|line ls' name a b E D L|line ls' name v ls'' E L]; try discriminate.
  - apply IH in H. destruct H as (l & n & a & b & Hi & R). exists l, n, a, b. split; [subst ls; right; exact Hi|exact R].
  - apply IH in H. destruct H as (l & n & a' & b' & Hi & R). exists l, n, a', b'. split; [|exact R].
    subst ls. right. apply (load_matrix_incl _ _ _ _ _ L). exact Hi.
  - exists line, name, a, b. split; [subst ls; left; reflexivity|]. split; [exact D|].
    destruct D as (s1 & s2 & s3 & s4 & _ & _ & G1 & G2). apply get_u64_range in G1. apply get_u64_range in G2.
    destruct (Z.eq_dec a 0) as [E0|E0]; [left; exact E0|right].
    destruct (Z_lt_dec (a * b) (2 ^ 64)) as [Hl|Hl]; [|lia]. exfalso. apply (load_matrix_safe a b ls'); lia || exact L.
  - apply IH in H. destruct H as (l & n & a & b & Hi & R). exists l, n, a, b. split; [|exact R].
    subst ls. right. apply (load_string_incl _ _ _ L). exact Hi.
Qed.

Lemma load_loop_proper : forall f type ls st st', proper_store st -> load_loop rnd mem f type ls st = Some (Ok st') -> proper_store st'.
Proof.
  induction f as [|f IH]; intros type ls st st' Hp H; [discriminate|]. rewrite load_loop_step in H.
  destruct (load_step_case (load_loop rnd mem f) type ls st)
    as [E|ls' E|E|line ls' name a b m ls'' E D L|line ls' name a b E D L|line ls' name v ls'' E L]; try discriminate.
  - inversion H; subst. exact Hp.
  - apply (IH _ _ _ _ Hp H).
  - apply (IH _ _ _ _) in H; [exact H|]. intros n m' F. cbn [st_mats] in F. rewrite find_emplace in F.
    destruct (find n (st_mats st)) as [m0|] eqn:F0; [inversion F; subst; apply (Hp n); exact F0|].
    destruct (str_eqb n name); [|discriminate]. inversion F; subst.
    destruct D as (s1 & s2 & s3 & s4 & _ & _ & G1 & G2). apply get_u64_range in G1. apply get_u64_range in G2.
    apply (load_matrix_proper a b ls' m' ls''); [lia|lia|exact L].
  - apply (IH _ _ _ _) in H; [exact H|]. intros n m' F. apply (Hp n m' F).
Qed.

Lemma load_proper : forall text st, load rnd mem text = Some (Ok st) -> proper_store st.
Proof. intros text st H. apply (load_loop_proper _ _ _ (Store [] []) _ (fun n m F => False_ind _ (eq_ind None (fun o => match o with None => True | Some _ => False end) I _ F)) H). Qed.

Lemma load_ub : forall text, load rnd mem text = Some UB ->
  exists line name a b, In line (lines_of text) /\ declares_by line name a b /\ (a = 0 \/ 2 ^ 64 <= a * b).
Proof. intros text H. apply (load_loop_ub _ _ _ _ H). Qed.

(** A header with zero rows as the first line. *)
Lemma load_zero_rows : forall line ls type st name b, 0 <= mem -> declares_by line name 0 b ->
  load_from rnd mem type (line :: ls) st = Some UB.
Proof.
  intros line ls type st name b Hm (s1 & s2 & s3 & s4 & W & W1 & G1 & G2). rewrite load_from_step. unfold load_step.
  destruct line as [|c line]; [discriminate|]. rewrite W, str_eqb_refl, W1, G1, G2.
  unfold load_matrix. change (0 * b) with 0. change (0 mod 2 ^ 64) with 0.
  replace (mem <? 0) with false by (symmetry; apply Z.ltb_ge; exact Hm). reflexivity.
Qed.
End Any.

(** * Read calls *)
Lemma find_update_other : forall (A : Type) k k' (f : A -> A) l, k <> k' -> find k (update k' f l) = find k l.
Proof.
  intros A k k' f l N. induction l as [|[k0 v] l IH]; [reflexivity|]. cbn [update].
  destruct (str_eqb_spec k' k0) as [E|E].
  - subst k0. cbn [find]. destruct (str_eqb_spec k k') as [E2|E2]; [contradiction|reflexivity].
  - cbn [find]. destruct (str_eqb k k0); [reflexivity|exact IH].
Qed.
Lemma find_update_same : forall (A : Type) k (f : A -> A) l, find k (update k f l) = option_map f (find k l).
Proof.
  intros A k f l. induction l as [|[k0 v] l IH]; [reflexivity|]. cbn [update].
  destruct (str_eqb_spec k k0) as [E|E].
  - subst k0. cbn [find]. rewrite str_eqb_refl. reflexivity.
  - cbn [find]. destruct (str_eqb_spec k k0); [contradiction|exact IH].
Qed.

(** What a call does to the cells: only the variable it destroys is touched. *)
Lemma do_read_strs : forall r c, r_strs (snd (do_read r c)) = r_strs r.
Proof.
  intros r c. destruct c as [n|n|n|n|n|t n|t n|n|t n|d n|d n]; cbn [do_read]; try reflexivity; unfold with_matrix.
  - destruct (find n (r_mats r)) as [c|]; [destruct (readable c)|]; reflexivity.
  - destruct (find n (r_mats r)) as [c|]; [|reflexivity]. destruct (_ || _)%bool; [destruct (readable c)|]; reflexivity.
  - destruct (find n (r_mats r)) as [c|]; [|reflexivity]. destruct (not_scalar _); [reflexivity|].
    destruct (readable c); [destruct (elements _)|]; reflexivity.
  - destruct (find n (r_mats r)) as [c|]; [destruct (readable c)|]; reflexivity.
  - destruct (find n (r_mats r)) as [c|]; [destruct (readable c)|]; reflexivity.
  - destruct (find n (r_mats r)) as [c|]; reflexivity.
  - destruct (find n (r_mats r)) as [c|]; reflexivity.
  - destruct (find (attr_name d n) (r_mats r)) as [c|]; [|reflexivity]. destruct (not_scalar _); [reflexivity|].
    destruct (readable c); reflexivity.
Qed.

Definition step_flags (a b : cell) : Prop :=
  c_mat b = c_mat a /\ (readable b = true -> readable a = true).
Lemma do_read_cells : forall r c k, match find k (r_mats r), find k (r_mats (snd (do_read r c))) with
  | None, None => True
  | Some a, Some b => step_flags a b /\ (destroys c <> Some k -> b = a)
  | _, _ => False
  end.
Proof.
  intros r c k.
  assert (Same : match find k (r_mats r), find k (r_mats r) with
    | None, None => True | Some a, Some b => step_flags a b /\ (destroys c <> Some k -> b = a) | _, _ => False end).
  { destruct (find k (r_mats r)); [|exact I]. split; [split; auto|reflexivity]. }
  assert (Up : forall n f, destroys c = Some n -> (forall a, step_flags a (f a)) ->
    match find k (r_mats r), find k (update n f (r_mats r)) with
    | None, None => True | Some a, Some b => step_flags a b /\ (destroys c <> Some k -> b = a) | _, _ => False end).
  { intros n f Hd Hf. destruct (str_eqb_spec k n) as [E|E].
    - subst n. rewrite find_update_same. destruct (find k (r_mats r)); cbn [option_map]; [|exact I].
      split; [apply Hf|]. rewrite Hd. intro N. contradiction.
    - rewrite find_update_other by exact E. exact Same. }
  assert (Kb : forall a, step_flags a (kill_both a)) by (intro a; split; [reflexivity|discriminate]).
  assert (Kt : forall a, step_flags a (kill_table a)) by (intro a; split; [reflexivity|discriminate]).
  destruct c as [n|n|n|n|n|t n|t n|n|t n|d n|d n]; cbn [do_read destroys] in *; try exact Same; unfold with_matrix.
  - destruct (find n (r_mats r)) as [c|]; [destruct (readable c)|]; exact Same.
  - destruct (find n (r_mats r)) as [c|]; [|exact Same]. destruct (_ || _)%bool; [|exact Same].
    destruct (readable c); [|exact Same]. apply (Up n kill_table eq_refl Kt).
  - destruct (find n (r_mats r)) as [c|]; [|exact Same]. destruct (not_scalar _); [exact Same|].
    destruct (readable c); [|exact Same]. destruct (elements _); [exact Same|]. apply (Up n kill_both eq_refl Kb).
  - destruct (find n (r_mats r)) as [c|]; [|exact Same]. destruct (readable c); [|exact Same].
    apply (Up n kill_both eq_refl Kb).
  - destruct (find n (r_mats r)) as [c|]; [|exact Same]. destruct (readable c); [|exact Same].
    apply (Up n kill_both eq_refl Kb).
  - destruct (find n (r_mats r)) as [c|]; exact Same.
  - destruct (find n (r_mats r)) as [c|]; exact Same.
  - destruct (find (attr_name d n) (r_mats r)) as [c|]; [|exact Same]. destruct (not_scalar _); [exact Same|].
    destruct (readable c); exact Same.
Qed.

Lemma after_strs : forall cs r, r_strs (after r cs) = r_strs r.
Proof.
  induction cs as [|c cs IH]; intro r; [reflexivity|]. change (after r (c :: cs)) with (after (snd (do_read r c)) cs).
  rewrite IH. apply do_read_strs.
Qed.
Lemma after_cells : forall cs r k, match find k (r_mats r), find k (r_mats (after r cs)) with
  | None, None => True
  | Some a, Some b => step_flags a b /\ ((forall c, In c cs -> destroys c <> Some k) -> b = a)
  | _, _ => False
  end.
Proof.
  induction cs as [|c cs IH]; intros r k.
  - cbn [after fold_left]. destruct (find k (r_mats r)); [|exact I]. split; [split; auto|reflexivity].
  - change (after r (c :: cs)) with (after (snd (do_read r c)) cs).
    assert (A := do_read_cells r c k). assert (B := IH (snd (do_read r c)) k).
    destruct (find k (r_mats r)) as [a|]; destruct (find k (r_mats (snd (do_read r c)))) as [b|];
      destruct (find k (r_mats (after (snd (do_read r c)) cs))) as [d|]; try contradiction; [|exact I].
    destruct A as [[A1 A2] A3]. destruct B as [[B1 B2] B3]. split.
    + split; [congruence|auto].
    + intro H. rewrite B3 by (intros x Hx; apply H; right; exact Hx). apply A3. apply H. left. reflexivity.
Qed.

(** The result of a call depends on the strings, on which matrices exist, and on the
    cell it looks at. *)
Lemma result_local : forall r r' c, r_strs r' = r_strs r ->
  (forall k, find k (r_mats r') = None <-> find k (r_mats r) = None) ->
  (forall k, looks_at c = Some k -> find k (r_mats r') = find k (r_mats r)) ->
  result r' c = result r c.
Proof.
  intros r r' c Hs Hn Hc. unfold result.
  destruct c as [n|n|n|n|n|t n|t n|n|t n|d n|d n]; cbn [do_read looks_at] in *; unfold with_matrix; cbn [fst].
  - rewrite Hs. specialize (Hn n). destruct (find n (r_mats r')), (find n (r_mats r)); try reflexivity.
    + exfalso. destruct Hn as [_ Hn]. discriminate (Hn eq_refl).
    + exfalso. destruct Hn as [Hn _]. discriminate (Hn eq_refl).
  - rewrite Hs. reflexivity.
  - rewrite (Hc n eq_refl). destruct (find n (r_mats r)) as [c|]; [destruct (readable c)|]; reflexivity.
  - rewrite (Hc n eq_refl). destruct (find n (r_mats r)) as [c|]; [|reflexivity].
    destruct (_ || _)%bool; [destruct (readable c)|]; reflexivity.
  - rewrite (Hc n eq_refl). destruct (find n (r_mats r)) as [c|]; [|reflexivity].
    destruct (not_scalar _); [reflexivity|]. destruct (readable c); [destruct (elements _)|]; reflexivity.
  - rewrite (Hc n eq_refl). destruct (find n (r_mats r)) as [c|]; [destruct (readable c)|]; reflexivity.
  - rewrite (Hc n eq_refl). destruct (find n (r_mats r)) as [c|]; [destruct (readable c)|]; reflexivity.
  - rewrite (Hc n eq_refl). destruct (find n (r_mats r)) as [c|]; reflexivity.
  - rewrite (Hc n eq_refl). destruct (find n (r_mats r)) as [c|]; reflexivity.
  - rewrite (Hc (attr_name d n) eq_refl). destruct (find (attr_name d n) (r_mats r)) as [c|]; [|reflexivity].
    destruct (not_scalar _); [reflexivity|]. destruct (readable c); reflexivity.
  - rewrite Hs. reflexivity.
Qed.

Lemma undisturbed : forall r cs c,
  (forall k c', looks_at c = Some k -> In c' cs -> destroys c' <> Some k) ->
  result (after r cs) c = result r c.
Proof.
  intros r cs c H. apply result_local.
  - apply after_strs.
  - intro k. assert (A := after_cells cs r k).
    destruct (find k (r_mats r)), (find k (r_mats (after r cs))); try contradiction; split; congruence.
  - intros k Hk. assert (A := after_cells cs r k).
    destruct (find k (r_mats r)) as [a|], (find k (r_mats (after r cs))) as [b|]; try contradiction; [|reflexivity].
    destruct A as [_ A]. rewrite A; [reflexivity|]. intros c' Hc'. apply (H k c' Hk Hc').
Qed.

(** A successful destroying call leaves an unusable cell. *)
Lemma destroys_kills : forall r c n v, destroys c = Some n -> result r c = Ok v ->
  exists a, find n (r_mats (snd (do_read r c))) = Some a /\ readable a = false /\
            option_map c_mat (find n (r_mats r)) = Some (c_mat a).
Proof.
  intros r c n v Hd Hr. unfold result in Hr.
  assert (Kb : forall a, find n (r_mats r) = Some a -> exists b, find n (r_mats (freed r n)) = Some b /\ readable b = false /\
    option_map c_mat (find n (r_mats r)) = Some (c_mat b)).
  { intros a Ha. exists (kill_both a). unfold freed, set_mats. cbn [r_mats]. rewrite find_update_same, Ha. repeat split. }
  destruct c as [m|m|m|m|m|t m|t m|m|t m|d m|d m]; cbn [destroys] in Hd; try discriminate; inversion Hd; subst m;
    cbn [do_read] in *; unfold with_matrix in *; destruct (find n (r_mats r)) as [a|] eqn:Ha; try discriminate.
  - destruct (_ || _)%bool; [|discriminate]. destruct (readable a) eqn:R; [|discriminate].
    exists (kill_table a). cbn [snd set_mats r_mats]. rewrite find_update_same, Ha. cbn [option_map]. repeat split.
  - destruct (not_scalar _); [discriminate|]. destruct (readable a); [|discriminate]. destruct (elements _); [discriminate|].
    cbn [snd]. apply (Kb a eq_refl).
  - destruct (readable a); [|discriminate]. cbn [snd]. apply (Kb a eq_refl).
  - destruct (readable a); [|discriminate]. cbn [snd]. apply (Kb a eq_refl).
Qed.

(** Calls on an unusable cell. *)
Lemma dead_stays : forall cs r n a, find n (r_mats r) = Some a -> readable a = false ->
  exists b, find n (r_mats (after r cs)) = Some b /\ readable b = false /\ c_mat b = c_mat a.
Proof.
  intros cs r n a Ha Hr. assert (A := after_cells cs r n). rewrite Ha in A.
  destruct (find n (r_mats (after r cs))) as [b|]; [|contradiction]. destruct A as [[A1 A2] _].
  exists b. split; [reflexivity|]. split; [|exact A1]. destruct (readable b); [|reflexivity]. rewrite (A2 eq_refl) in Hr. discriminate.
Qed.

Lemma read_again_ub : forall r c n v cs, destroys c = Some n -> result r c = Ok v ->
  let r' := after (snd (do_read r c)) cs in
  result r' c = UB /\ result r' (RDoubles n) = UB /\ (forall t, result r' (RInts t n) = UB).
Proof.
  intros r c n v cs Hd Hr r'. destruct (destroys_kills r c n v Hd Hr) as (a & Ha & Ra & Ma).
  destruct (dead_stays cs _ n a Ha Ra) as (b & Hb & Rb & Mb). fold r' in Hb.
  assert (D : result r' (RDoubles n) = UB).
  { unfold result. cbn [do_read]. unfold with_matrix. rewrite Hb, Rb. reflexivity. }
  assert (I : forall t, result r' (RInts t n) = UB).
  { intro t. unfold result. cbn [do_read]. unfold with_matrix. rewrite Hb, Rb. reflexivity. }
  split; [|split; assumption].
  unfold result in *. destruct c as [m|m|m|m|m|t m|t m|m|t m|d m|d m]; cbn [destroys] in Hd; try discriminate; inversion Hd; subst m;
    cbn [do_read] in *; unfold with_matrix in *; rewrite Hb, ?Rb, ?Mb;
    destruct (find n (r_mats r)) as [a0|]; try discriminate; cbn [option_map] in Ma; inversion Ma as [Ma']; rewrite <- ?Ma'.
  - destruct (_ || _)%bool; [|discriminate]. reflexivity.
  - destruct (not_scalar _); [discriminate|]. reflexivity.
  - reflexivity.
  - reflexivity.
Qed.

(** * Shapes *)
Lemma find_open : forall st n, find n (r_mats (open_store st)) = option_map (fun m => Cell m true true) (find n (st_mats st)).
Proof.
  intros st n. unfold open_store. cbn [r_mats]. induction (st_mats st) as [|[k m] l IH]; [reflexivity|].
  cbn [map find fst snd]. destruct (str_eqb n k); [reflexivity|exact IH].
Qed.

Lemma elements_length : forall m, proper m -> Z.of_nat (length (elements m)) = m_nrows m * m_ncols m.
Proof.
  intros m (_ & _ & L & R). unfold elements. rewrite <- L. clear L. induction (m_rows m) as [|r l IH]; [reflexivity|].
  cbn [concat length]. rewrite app_length, Nat2Z.inj_add, IH by (intros x Hx; apply R; right; exact Hx).
  rewrite (R r (or_introl eq_refl)). lia.
Qed.
