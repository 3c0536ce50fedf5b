(** Lemmas about writing and loading SDT files. *)
From Verif Require Import Base SettingsModel SettingsProofs SdtModel NumText DoubleText SdtSpec.
From Coq Require Import ZArith QArith.
Local Open Scope Z_scope.

(** * Lines and words *)
Definition no_nl (s : str) : Prop := forall c, In c s -> c <> cNL.

Lemma lines_acc_app : forall l cur rest, no_nl l ->
  lines_acc cur (l ++ cNL :: rest) = (rev cur ++ l) :: lines_acc [] rest.
Proof.
  induction l as [|c l IH]; intros cur rest H.
  - cbn [app lines_acc]. change (Ascii.eqb cNL cNL) with true. cbv iota. rewrite app_nil_r. reflexivity.
  - cbn [app lines_acc]. assert (E : Ascii.eqb c cNL = false) by (apply Ascii.eqb_neq; apply H; left; reflexivity).
    rewrite E, IH by (intros x Hx; apply H; right; exact Hx). cbn [rev]. rewrite <- app_assoc. reflexivity.
Qed.
Lemma lines_of_app : forall l rest, no_nl l -> lines_of (l ++ cNL :: rest) = l :: lines_of rest.
Proof. intros l rest H. unfold lines_of. rewrite lines_acc_app by exact H. reflexivity. Qed.

Lemma white_nl : white cNL. Proof. right. vm_compute. lia. Qed.
Lemma not_white_nl : forall s : str, (forall c, In c s -> ~ white c) -> no_nl s.
Proof. intros s H c Hc E. subst c. apply (H cNL Hc white_nl). Qed.
Lemma no_nl_app : forall a b, no_nl a -> no_nl b -> no_nl (a ++ b).
Proof. intros a b Ha Hb c H. apply in_app_or in H. destruct H; auto. Qed.
Lemma no_nl_cons : forall c s, c <> cNL -> no_nl s -> no_nl (c :: s).
Proof. intros c s Hc Hs x [H|H]; [subst; exact Hc|apply Hs; exact H]. Qed.
Lemma no_nl_nil : no_nl []. Proof. intros c []. Qed.
Lemma sp_not_nl : cSP <> cNL. Proof. discriminate. Qed.

Lemma digit_not_white : forall c, digit c -> ~ white c.
Proof. intros c H1 H2. apply (white_not_digit c H2 H1). Qed.
Lemma mark_not_white : forall c, In c ["-"; "+"; "."; "e"]%char -> ~ white c.
Proof.
  intros c H W. unfold white in W.
  repeat (destruct H as [H|H]; [subst c; vm_compute in W; lia|]). exact H.
Qed.

Lemma show_nat_chars : forall z c, 0 <= z -> In c (show_nat z) -> ~ white c.
Proof. intros z c Hz H. apply digit_not_white. apply (show_nat_spec z Hz). exact H. Qed.
Lemma show_int_chars : forall z c, In c (show_int z) -> ~ white c.
Proof.
  intros z c H. unfold show_int in H. destruct (z <? 0) eqn:E.
  - destruct H as [H|H]; [apply mark_not_white; left; exact H|]. apply Z.ltb_lt in E. apply (show_nat_chars (- z) c); [lia|exact H].
  - apply Z.ltb_ge in E. apply (show_nat_chars z c E H).
Qed.

Lemma with_point_chars : forall ip fp c, In c (with_point ip fp) -> In c ip \/ In c fp \/ c = "."%char.
Proof.
  intros ip fp c H. unfold with_point in H. destruct (drop_trailing_split fp) as [k E].
  destruct (drop_trailing_zeros fp) as [|c0 f] eqn:Ef; [left; exact H|].
  apply in_app_or in H. destruct H as [H|[H|H]]; [left; exact H|right; right; symmetry; exact H|].
  right. left. rewrite E. apply in_or_app. left. exact H.
Qed.

Lemma show_pos_chars : forall n d c, 0 < n -> 0 < d -> In c (show_pos n d) -> ~ white c.
Proof.
  intros n d c Hn Hd H. unfold show_pos in H. assert (S := sig6_spec n d Hn Hd).
  destruct (sig6 n d) as [M X]. destruct S as [HM _].
  assert (A : forall x, In x (show_nat M) -> ~ white x) by (intros x Hx; apply (show_nat_chars M x); [lia|exact Hx]).
  assert (Z0 : forall x k, In x (repeat "0"%char k) -> ~ white x)
    by (intros x k Hx; apply digit_not_white; apply (digits_zero x k Hx)).
  assert (F : forall k x, In x (firstn k (show_nat M)) -> In x (show_nat M)).
  { intros k x Hx. rewrite <- (firstn_skipn k). apply in_or_app. left. exact Hx. }
  assert (K : forall k x, In x (skipn k (show_nat M)) -> In x (show_nat M)).
  { intros k x Hx. rewrite <- (firstn_skipn k). apply in_or_app. right. exact Hx. }
  assert (Dot : ~ white "."%char) by (apply mark_not_white; simpl; auto).
  destruct ((X <? -4) || (6 <=? X))%bool.
  - apply in_app_or in H. destruct H as [H|[H|[H|H]]].
    + apply with_point_chars in H. destruct H as [H|[H|H]]; [apply A, (F _ _ H)|apply A, (K _ _ H)|subst; exact Dot].
    + apply mark_not_white. simpl. auto.
    + apply mark_not_white. destruct (X <? 0); simpl; auto.
    + destruct (Z.abs X <? 10).
      * destruct H as [H|H]; [apply (Z0 c 1%nat); left; exact H|]. apply (show_nat_chars (Z.abs X) c); [lia|exact H].
      * apply (show_nat_chars (Z.abs X) c); [lia|exact H].
  - destruct (0 <=? X).
    + apply with_point_chars in H. destruct H as [H|[H|H]]; [apply A, (F _ _ H)|apply A, (K _ _ H)|subst; exact Dot].
    + apply with_point_chars in H. destruct H as [H|[H|H]]; [apply (Z0 c 1%nat H)| |subst; exact Dot].
      apply in_app_or in H. destruct H as [H|H]; [apply (Z0 _ _ H)|apply A; exact H].
Qed.
Lemma show_double_chars : forall q c, In c (show_double q) -> ~ white c.
Proof.
  intros q c H. unfold show_double in H. destruct (Qnum q =? 0) eqn:E0.
  - apply digit_not_white. apply (digits_zero c 1). exact H.
  - apply Z.eqb_neq in E0. destruct (Qnum q <? 0) eqn:E1.
    + apply Z.ltb_lt in E1. destruct H as [H|H]; [apply mark_not_white; left; exact H|].
      apply (show_pos_chars (- Qnum q) (Zpos (Qden q)) c); [lia|reflexivity|exact H].
    + apply Z.ltb_ge in E1. apply (show_pos_chars (Qnum q) (Zpos (Qden q)) c); [lia|reflexivity|exact H].
Qed.
Lemma show_nonfin_chars : forall x c, In c (show_nonfin x) -> ~ white c.
Proof.
  assert (W : forall l, forallb (fun c => negb (is_space c)) l = true -> forall c, In c l -> ~ white c).
  { intros l L c H B. rewrite forallb_forall in L. specialize (L c H). apply is_space_iff in B. rewrite B in L. discriminate. }
  intros [[|]|[|]]; apply W; vm_compute; reflexivity.
Qed.
Lemma show_num_chars : forall x c, In c (show_num x) -> ~ white c.
Proof. intros [z|q|x] c H; [apply (show_int_chars z c H)|apply (show_double_chars q c H)|apply (show_nonfin_chars x c H)]. Qed.

Lemma take_word_app : forall w rest, (forall c, In c w -> ~ white c) -> ends rest -> take_word (w ++ rest) = (w, rest).
Proof.
  induction w as [|c w IH]; intros rest H He.
  - cbn [app]. destruct rest as [|c r]; [reflexivity|]. cbn [take_word].
    assert (E : is_space c = true) by (apply is_space_iff; apply (He c r eq_refl)). rewrite E. reflexivity.
  - cbn [app take_word]. destruct (is_space c) eqn:E.
    + apply is_space_iff in E. exfalso. apply (H c); [left; reflexivity|exact E].
    + rewrite IH; [reflexivity| |exact He]. intros x Hx. apply H. right. exact Hx.
Qed.
Lemma get_word_app : forall ws w rest, (forall c, In c ws -> white c) -> plain w -> ends rest ->
  get_word (ws ++ w ++ rest) = Some (w, rest).
Proof.
  intros ws w rest Hw [Hne H] He. unfold get_word. rewrite skip_spaces_app; [|exact Hw|].
  - rewrite take_word_app by assumption. destruct w; [contradiction|reflexivity].
  - intros c r E. destruct w as [|c0 w0]; [contradiction|]. inversion E; subst. apply H. left. reflexivity.
Qed.

(** * Rows *)
Section Load.
Variable rnd : Q -> option Q.
Variable mem : Z.

Lemma get_double_show : forall ws x rest, (forall c, In c ws -> white c) -> ends rest -> in_range rnd x ->
  exists v, get_double rnd (ws ++ show_num x ++ rest) = Some (v, rest) /\ reads_back rnd x v.
Proof.
  intros ws x rest Hw He Hr. unfold get_double. destruct x as [z|q|x]; cbn [show_num reads_back in_range] in *; [| |contradiction].
  - rewrite parse_show_int by assumption. destruct (rnd (inject_Z z)) as [v|]; [|contradiction]. exists v. auto.
  - destruct (parse_show_double ws q rest Hw He) as [q' [P S]]. rewrite P. specialize (Hr q' S).
    destruct (rnd q') as [v|] eqn:E; [|contradiction]. exists v. split; [reflexivity|]. exists q'. auto.
Qed.

Lemma load_row_S : forall alloc idx k s, load_row rnd alloc idx (S k) s =
  if alloc <=? idx then UB else
  match get_double rnd s with
  | None => Throw
  | Some (v, r) => obind (load_row rnd alloc (idx + 1) k r) (fun l => Ok (v :: l))
  end.
Proof. reflexivity. Qed.

Lemma load_row_text : forall row ws alloc idx tail, (forall c, In c ws -> white c) ->
  (forall x, In x row -> in_range rnd x) -> idx + Z.of_nat (length row) <= alloc ->
  exists vs, load_row rnd alloc idx (length row) (ws ++ flat_map (fun x => show_num x ++ [cSP]) row ++ tail) = Ok vs /\
    Forall2 (reads_back rnd) row vs.
Proof.
  induction row as [|x row IH]; intros ws alloc idx tail Hw Hr Hl.
  - exists []. split; [reflexivity|constructor].
  - cbn [length flat_map]. rewrite load_row_S. cbn [length] in Hl.
    replace (alloc <=? idx) with false by (symmetry; apply Z.leb_gt; lia).
    rewrite <- !app_assoc.
    destruct (get_double_show ws x ([cSP] ++ flat_map (fun x => show_num x ++ [cSP]) row ++ tail) Hw
               (ends_sp _) (Hr x (or_introl eq_refl))) as [v [P V]].
    rewrite P.
    destruct (IH [cSP] alloc (idx + 1) tail white_sp (fun y Hy => Hr y (or_intror Hy)) ltac:(lia)) as [vs [P2 V2]].
    rewrite P2. exists (v :: vs). split; [reflexivity|]. constructor; assumption.
Qed.

Definition row_line (row : list snum) : str := flat_map (fun x => show_num x ++ [cSP]) row.

Lemma load_rows_text : forall rows nc alloc idx rest, (forall r, In r rows -> length r = nc) ->
  (forall r x, In r rows -> In x r -> in_range rnd x) ->
  idx + Z.of_nat (length rows) * Z.of_nat nc <= alloc -> 
  exists vals, load_rows rnd alloc idx (length rows) nc (map row_line rows ++ rest) = Ok (vals, rest) /\
    read_matrix rnd rows vals.
Proof.
  induction rows as [|row rows IH]; intros nc alloc idx rest Hlen Hr Hl.
  - exists []. split; [reflexivity|constructor].
  - cbn [length map app load_rows]. cbn [length] in Hl.
    assert (Lr : length row = nc) by (apply Hlen; left; reflexivity).
    destruct (load_row_text row [] alloc idx [] (fun c H => match H with end) (fun x Hx => Hr row x (or_introl eq_refl) Hx)) as [vs [P V]].
    { rewrite Lr. nia. }
    rewrite app_nil_r in P. cbn [app] in P. rewrite Lr in P. unfold row_line at 1. rewrite P. cbn [obind].
    destruct (IH nc alloc (idx + Z.of_nat nc) rest) as [vals [P2 V2]].
    + intros r H. apply Hlen. right. exact H.
    + intros r x H. apply Hr. right. exact H.
    + lia.
    + rewrite P2. cbn [obind fst snd]. exists (vs :: vals). split; [reflexivity|]. constructor; assumption.
Qed.

Lemma load_matrix_text : forall rows nc rest, mem < 2 ^ 64 -> ok_matrix rnd mem nc rows ->
  exists vals, load_matrix rnd mem (Z.of_nat (length rows)) (Z.of_nat nc) (map row_line rows ++ rest) =
    Ok (Matrix (Z.of_nat (length rows)) (Z.of_nat nc) vals, rest) /\ read_matrix rnd rows vals.
Proof.
  intros rows nc rest Hm (Hne & Hlen & Hr & H1 & H2 & H3). unfold load_matrix.
  rewrite Z.mod_small by nia.
  replace (mem <? Z.of_nat (length rows)) with false by (symmetry; apply Z.ltb_ge; lia).
  replace (mem <? Z.of_nat (length rows) * Z.of_nat nc) with false by (symmetry; apply Z.ltb_ge; lia).
  replace (Z.of_nat (length rows) =? 0) with false.
  2:{ symmetry. apply Z.eqb_neq. destruct rows; [contradiction|]. cbn [length]. lia. }
  rewrite !Nat2Z.id.
  destruct (load_rows_text rows nc (Z.of_nat (length rows) * Z.of_nat nc) 0 rest Hlen Hr ltac:(lia)) as [vals [P V]].
  rewrite P. exists vals. split; [reflexivity|exact V].
Qed.

(** * Strings *)
Lemma char_code_range : forall c, - 128 <= char_code c < 128.
Proof.
  intro c. unfold char_code. assert (H := nat_ascii_bounded c).
  destruct (Z.of_nat (nat_of_ascii c) <? 128) eqn:E; [apply Z.ltb_lt in E|apply Z.ltb_ge in E]; lia.
Qed.
Lemma char_code_inv : forall c, char_of_code (char_code c) = c.
Proof.
  intro c. unfold char_of_code. replace (char_code c mod 256) with (Z.of_nat (nat_of_ascii c)).
  - rewrite Nat2Z.id. apply ascii_nat_embedding.
  - unfold char_code. assert (H := nat_ascii_bounded c).
    destruct (Z.of_nat (nat_of_ascii c) <? 128) eqn:E.
    + symmetry. apply Z.mod_small. lia.
    + apply Z.mod_unique with (-1); lia.
Qed.

Definition string_line (v : str) : str := flat_map (fun c => show_int (char_code c) ++ [cSP]) v.

Lemma get_i32_blank : forall ws, (forall c, In c ws -> white c) -> get_i32 ws = None.
Proof.
  intros ws H. unfold get_i32, sto_signed, strto.
  assert (E : skip_spaces ws = []).
  { rewrite <- (app_nil_r ws). apply skip_spaces_app; [exact H|discriminate]. }
  rewrite E. reflexivity.
Qed.
Lemma load_chars_text : forall v ws f, (forall c, In c ws -> white c) -> (length v <= f)%nat ->
  load_chars f (ws ++ string_line v) = v.
Proof.
  induction v as [|c v IH]; intros ws f Hw Hf.
  - cbn [string_line flat_map]. rewrite app_nil_r. destruct f as [|f]; [reflexivity|].
    cbn [load_chars]. rewrite get_i32_blank by exact Hw. reflexivity.
  - destruct f as [|f]; [cbn [length] in Hf; lia|]. cbn [load_chars].
    change (string_line (c :: v)) with ((show_int (char_code c) ++ [cSP]) ++ string_line v).
    rewrite <- app_assoc. assert (R := char_code_range c).
    rewrite get_i32_show; [|exact Hw|apply ends_sp|lia].
    rewrite char_code_inv. f_equal. apply (IH [cSP] f white_sp). cbn [length] in Hf. lia.
Qed.
Lemma string_line_length : forall v, (length v <= length (string_line v))%nat.
Proof.
  induction v as [|c v IH]; [apply Nat.le_0_l|].
  change (string_line (c :: v)) with ((show_int (char_code c) ++ [cSP]) ++ string_line v).
  rewrite !app_length. cbn [length]. lia.
Qed.
Lemma load_string_text : forall v rest, load_string (string_line v :: rest) = (v, rest).
Proof.
  intros v rest. unfold load_string. f_equal. apply (load_chars_text v [] _ (fun c H => match H with end) (string_line_length v)).
Qed.

(** * The loop *)
Lemma load_rows_rest : forall n alloc idx nc ls p, load_rows rnd alloc idx n nc ls = Ok p -> (length (snd p) <= length ls)%nat.
Proof.
  induction n as [|n IH]; intros alloc idx nc ls p H; cbn [load_rows] in H.
  - inversion H; subst. cbn [snd]. lia.
  - destruct ls as [|l r].
    + destruct (load_row rnd alloc idx nc []) as [row| |]; cbn [obind] in H; try discriminate.
      destruct (load_rows rnd alloc (idx + Z.of_nat nc) n nc []) as [q| |] eqn:E; cbn [obind] in H; try discriminate.
      inversion H; subst. cbn [snd]. apply (IH _ _ _ _ _ E).
    + destruct (load_row rnd alloc idx nc l) as [row| |]; cbn [obind] in H; try discriminate.
      destruct (load_rows rnd alloc (idx + Z.of_nat nc) n nc r) as [q| |] eqn:E; cbn [obind] in H; try discriminate.
      inversion H; subst. cbn [snd length]. assert (B := IH _ _ _ _ _ E). lia.
Qed.
Lemma load_matrix_rest : forall a b ls m r, load_matrix rnd mem a b ls = Ok (m, r) -> (length r <= length ls)%nat.
Proof.
  intros a b ls m r H. unfold load_matrix in H.
  destruct (mem <? a); [discriminate|]. destruct (mem <? (a * b) mod 2 ^ 64); [discriminate|].
  destruct (a =? 0); [discriminate|].
  destruct (load_rows _ _ _ _ _ _) as [p| |] eqn:E; cbn [obind] in H; try discriminate.
  inversion H; subst. apply (load_rows_rest _ _ _ _ _ _ E).
Qed.
Lemma load_string_rest : forall ls v r, load_string ls = (v, r) -> (length r <= length ls)%nat.
Proof. intros ls v r H. unfold load_string in H. destruct ls; inversion H; subst; cbn [length]; lia. Qed.

(** One iteration, as a function of the continuation. *)
Definition load_step (k : str -> list str -> store -> option (outcome store)) (type : str) (ls : list str) (st : store)
  : option (outcome store) :=
    match ls with
    | [] => Some (Ok st)
    | [] :: ls' => k type ls' st
    | line :: ls' =>
        let '(type', s) := match get_word line with Some (w, r) => (w, r) | None => (type, []) end in
        if str_eqb type' (str_of "@matrix") then
          match get_word s with
          | None => Some Throw
          | Some (name, s1) =>
            match get_u64 s1 with
            | None => Some Throw
            | Some (rows, s2) =>
              match get_u64 s2 with
              | None => Some Throw
              | Some (cols, _) =>
                match load_matrix rnd mem rows cols ls' with
                | Ok (m, ls'') => k type' ls'' (Store (emplace name m (st_mats st)) (st_strs st))
                | Throw => Some Throw
                | UB => Some UB
                end
              end
            end
          end
        else if str_eqb type' (str_of "@string") then
          match get_word s with
          | None => Some Throw
          | Some (name, s1) =>
            match get_u64 s1 with
            | None => Some Throw
            | Some (_, _) =>
                let '(v, ls'') := load_string ls' in
                k type' ls'' (Store (st_mats st) (emplace name v (st_strs st)))
            end
          end
        else Some Throw
    end.
Lemma load_loop_step : forall f type ls st, load_loop rnd mem (S f) type ls st = load_step (load_loop rnd mem f) type ls st.
Proof. reflexivity. Qed.

Lemma load_step_ext : forall k1 k2 type ls st,
  (forall t r s, (length r < length ls)%nat -> k1 t r s = k2 t r s) -> load_step k1 type ls st = load_step k2 type ls st.
Proof.
  intros k1 k2 type ls st H. unfold load_step. destruct ls as [|line ls']; [reflexivity|].
  destruct line as [|c line]; [apply H; cbn [length]; lia|].
  destruct (match get_word (c :: line) with Some (w, r) => (w, r) | None => (type, []) end) as [t' s].
  destruct (str_eqb t' (str_of "@matrix")).
  - destruct (get_word s) as [[name s1]|]; [|reflexivity]. destruct (get_u64 s1) as [[rows s2]|]; [|reflexivity].
    destruct (get_u64 s2) as [[cols s3]|]; [|reflexivity].
    destruct (load_matrix rnd mem rows cols ls') as [[m ls'']| |] eqn:E; [|reflexivity|reflexivity].
    apply H. apply load_matrix_rest in E. cbn [length]. lia.
  - destruct (str_eqb t' (str_of "@string")); [|reflexivity].
    destruct (get_word s) as [[name s1]|]; [|reflexivity]. destruct (get_u64 s1) as [[n s2]|]; [|reflexivity].
    destruct (load_string ls') as [v ls''] eqn:E. apply H. apply load_string_rest in E. cbn [length]. lia.
Qed.

Lemma load_loop_fuel : forall f1 f2 type ls st, (length ls < f1)%nat -> (length ls < f2)%nat ->
  load_loop rnd mem f1 type ls st = load_loop rnd mem f2 type ls st.
Proof.
  induction f1 as [|f1 IH]; intros f2 type ls st H1 H2; [lia|]. destruct f2 as [|f2]; [lia|].
  rewrite !load_loop_step. apply load_step_ext. intros t r s H. apply IH; lia.
Qed.

Lemma load_loop_some : forall f type ls st, (length ls < f)%nat -> load_loop rnd mem f type ls st <> None.
Proof.
  induction f as [|f IH]; intros type ls st H; [lia|]. rewrite load_loop_step. unfold load_step.
  destruct ls as [|line ls']; [discriminate|]. cbn [length] in H.
  destruct line as [|c line]; [apply IH; lia|].
  destruct (match get_word (c :: line) with Some (w, r) => (w, r) | None => (type, []) end) as [t' s].
  destruct (str_eqb t' (str_of "@matrix")).
  - destruct (get_word s) as [[name s1]|]; [|discriminate]. destruct (get_u64 s1) as [[rows s2]|]; [|discriminate].
    destruct (get_u64 s2) as [[cols s3]|]; [|discriminate].
    destruct (load_matrix rnd mem rows cols ls') as [[m ls'']| |] eqn:E; [|discriminate|discriminate].
    apply IH. apply load_matrix_rest in E. lia.
  - destruct (str_eqb t' (str_of "@string")); [|discriminate].
    destruct (get_word s) as [[name s1]|]; [|discriminate]. destruct (get_u64 s1) as [[n s2]|]; [|discriminate].
    destruct (load_string ls') as [v ls''] eqn:E. apply IH. apply load_string_rest in E. lia.
Qed.

Definition load_from (type : str) (ls : list str) (st : store) : option (outcome store) :=
  load_loop rnd mem (S (length ls)) type ls st.
Lemma load_from_step : forall type ls st, load_from type ls st = load_step load_from type ls st.
Proof.
  intros type ls st. unfold load_from at 1. rewrite load_loop_step. apply load_step_ext.
  intros t r s H. unfold load_from. apply load_loop_fuel; lia.
Qed.
Lemma load_fuel_enough : forall text, load rnd mem text <> None.
Proof. intro text. apply load_loop_some. lia. Qed.

(** * One write call *)
Definition adds (c : wcall) (st st' : store) : Prop :=
  match defines c with
  | None => st' = st
  | Some (n, DMat nc rows) => exists vals, read_matrix rnd rows vals /\
      st' = Store (emplace n (Matrix (Z.of_nat (length rows)) (Z.of_nat nc) vals) (st_mats st)) (st_strs st)
  | Some (n, DStr s) => st' = Store (st_mats st) (emplace n s (st_strs st))
  end.

Lemma load_empty_line : forall type ls st, load_from type ([] :: ls) st = load_from type ls st.
Proof. intros type ls st. rewrite load_from_step. reflexivity. Qed.

Lemma plain_word : forall w : string, (forall c, In c (str_of w) -> ~ white c) -> str_of w <> [] -> plain (str_of w).
Proof. intros w H1 H2. split; assumption. Qed.
Lemma plain_at_matrix : plain (str_of "@matrix").
Proof.
  split; [discriminate|]. intros c H W. unfold white in W.
  repeat (destruct H as [H|H]; [subst c; vm_compute in W; lia|]). exact H.
Qed.
Lemma plain_at_string : plain (str_of "@string").
Proof.
  split; [discriminate|]. intros c H W. unfold white in W.
  repeat (destruct H as [H|H]; [subst c; vm_compute in W; lia|]). exact H.
Qed.

Lemma show_int_nonempty : forall z, show_int z <> [].
Proof.
  intro z. unfold show_int. destruct (z <? 0) eqn:E; [discriminate|]. apply Z.ltb_ge in E. apply (show_nat_spec z E).
Qed.

Lemma load_matrix_header : forall type name a b ls st, plain name -> 0 <= a < 2 ^ 64 -> 0 <= b < 2 ^ 64 ->
  load_from type ((str_of "@matrix" ++ [cSP] ++ name ++ [cSP] ++ show_int a ++ [cSP] ++ show_int b) :: ls) st =
  match load_matrix rnd mem a b ls with
  | Ok (m, ls') => load_from (str_of "@matrix") ls' (Store (emplace name m (st_mats st)) (st_strs st))
  | Throw => Some Throw
  | UB => Some UB
  end.
Proof.
  intros type name a b ls st Hn Ha Hb. rewrite load_from_step.
  set (s1 := [cSP] ++ name ++ [cSP] ++ show_int a ++ [cSP] ++ show_int b).
  assert (W1 : get_word (str_of "@matrix" ++ s1) = Some (str_of "@matrix", s1)).
  { exact (get_word_app [] (str_of "@matrix") s1 (fun c H => match H with end) plain_at_matrix (ends_sp _)). }
  unfold load_step. destruct (str_of "@matrix" ++ s1) as [|c0 l0] eqn:E; [discriminate|].
  rewrite W1. rewrite str_eqb_refl.
  unfold s1. rewrite (get_word_app [cSP] name ([cSP] ++ show_int a ++ [cSP] ++ show_int b) white_sp Hn (ends_sp _)).
  rewrite (get_u64_show [cSP] a ([cSP] ++ show_int b) white_sp (ends_sp _) Ha).
  assert (G := get_u64_show [cSP] b [] white_sp ends_nil Hb). rewrite app_nil_r in G. rewrite G. reflexivity.
Qed.

Lemma load_string_header : forall type name a ls st, plain name -> 0 <= a < 2 ^ 64 ->
  load_from type ((str_of "@string" ++ [cSP] ++ name ++ [cSP] ++ show_int a) :: ls) st =
  load_from (str_of "@string") (snd (load_string ls)) (Store (st_mats st) (emplace name (fst (load_string ls)) (st_strs st))).
Proof.
  intros type name a ls st Hn Ha. rewrite load_from_step.
  set (s1 := [cSP] ++ name ++ [cSP] ++ show_int a).
  assert (W1 : get_word (str_of "@string" ++ s1) = Some (str_of "@string", s1)).
  { exact (get_word_app [] (str_of "@string") s1 (fun c H => match H with end) plain_at_string (ends_sp _)). }
  unfold load_step. destruct (str_of "@string" ++ s1) as [|c0 l0] eqn:E; [discriminate|].
  rewrite W1. change (str_eqb (str_of "@string") (str_of "@matrix")) with false. rewrite str_eqb_refl. cbv iota.
  unfold s1. rewrite (get_word_app [cSP] name ([cSP] ++ show_int a) white_sp Hn (ends_sp _)).
  assert (G := get_u64_show [cSP] a [] white_sp ends_nil Ha). rewrite app_nil_r in G. rewrite G.
  destruct (load_string ls) as [v r]. reflexivity.
Qed.

Lemma no_nl_plain : forall n, plain n -> no_nl n.
Proof. intros n [_ H]. apply not_white_nl. exact H. Qed.
Lemma no_nl_show_int : forall z, no_nl (show_int z).
Proof. intro z. apply not_white_nl. apply show_int_chars. Qed.
Lemma no_nl_row : forall row, no_nl (row_line row).
Proof.
  induction row as [|x row IH]; [apply no_nl_nil|]. change (row_line (x :: row)) with ((show_num x ++ [cSP]) ++ row_line row).
  apply no_nl_app; [|exact IH]. apply no_nl_app; [apply not_white_nl, show_num_chars|].
  apply no_nl_cons; [apply sp_not_nl|apply no_nl_nil].
Qed.
Lemma no_nl_string : forall v, no_nl (string_line v).
Proof.
  induction v as [|x v IH]; [apply no_nl_nil|]. change (string_line (x :: v)) with ((show_int (char_code x) ++ [cSP]) ++ string_line v).
  apply no_nl_app; [|exact IH]. apply no_nl_app; [apply no_nl_show_int|].
  apply no_nl_cons; [apply sp_not_nl|apply no_nl_nil].
Qed.
Lemma no_nl_sp : no_nl [cSP].
Proof. apply no_nl_cons; [apply sp_not_nl|apply no_nl_nil]. Qed.

Lemma lines_rows : forall rows rest, lines_of (flat_map write_row rows ++ rest) = map row_line rows ++ lines_of rest.
Proof.
  induction rows as [|row rows IH]; intro rest; [reflexivity|].
  cbn [flat_map map]. unfold write_row at 1. rewrite <- !app_assoc. change ([cNL] ++ ?x) with (cNL :: x).
  rewrite lines_of_app by apply no_nl_row. rewrite IH. reflexivity.
Qed.

Lemma header_no_nl_m : forall name a b, plain name ->
  no_nl (str_of "@matrix" ++ [cSP] ++ name ++ [cSP] ++ show_int a ++ [cSP] ++ show_int b).
Proof.
  intros name a b Hn. repeat (apply no_nl_app); try apply no_nl_sp; try apply no_nl_show_int; try (apply no_nl_plain; exact Hn).
  apply no_nl_plain, plain_at_matrix.
Qed.
Lemma header_no_nl_s : forall name a, plain name -> no_nl (str_of "@string" ++ [cSP] ++ name ++ [cSP] ++ show_int a).
Proof.
  intros name a Hn. repeat (apply no_nl_app); try apply no_nl_sp; try apply no_nl_show_int; try (apply no_nl_plain; exact Hn).
  apply no_nl_plain, plain_at_string.
Qed.

Lemma load_write_matrix : forall type name nc rows rest st, mem < 2 ^ 64 -> plain name -> ok_matrix rnd mem nc rows ->
  exists vals, read_matrix rnd rows vals /\
    load_from type (lines_of (write_matrix name nc rows ++ rest)) st =
    load_from (str_of "@matrix") (lines_of rest)
      (Store (emplace name (Matrix (Z.of_nat (length rows)) (Z.of_nat nc) vals) (st_mats st)) (st_strs st)).
Proof.
  intros type name nc rows rest st Hm Hn Hok.
  assert (E : write_matrix name nc rows ++ rest =
    (str_of "@matrix" ++ [cSP] ++ name ++ [cSP] ++ show_int (Z.of_nat (length rows)) ++ [cSP] ++ show_int (Z.of_nat nc))
    ++ cNL :: flat_map write_row rows ++ (cNL :: rest)).
  { unfold write_matrix. change (str_of "@matrix ") with (str_of "@matrix" ++ [cSP]).
    repeat (rewrite <- app_assoc || rewrite <- app_comm_cons). cbn [app]. reflexivity. }
  rewrite E, lines_of_app by (apply header_no_nl_m; exact Hn). rewrite lines_rows.
  change (lines_of (cNL :: rest)) with ([] :: lines_of rest).
  destruct Hok as (H1 & H2 & H3 & H4 & H5 & H6).
  rewrite load_matrix_header; [|exact Hn|lia|lia].
  destruct (load_matrix_text rows nc ([] :: lines_of rest) Hm) as [vals [P V]]; [exact (conj H1 (conj H2 (conj H3 (conj H4 (conj H5 H6)))))|].
  rewrite P. exists vals. split; [exact V|]. apply load_empty_line.
Qed.

Lemma load_write_string : forall type name v rest st, mem < 2 ^ 64 -> plain name -> Z.of_nat (length v) <= mem ->
  load_from type (lines_of (write_string name v ++ rest)) st =
  load_from (str_of "@string") (lines_of rest) (Store (st_mats st) (emplace name v (st_strs st))).
Proof.
  intros type name v rest st Hm Hn Hl.
  assert (E : write_string name v ++ rest =
    (str_of "@string" ++ [cSP] ++ name ++ [cSP] ++ show_int (Z.of_nat (length v)))
    ++ cNL :: string_line v ++ cNL :: (cNL :: rest)).
  { unfold write_string. change (str_of "@string ") with (str_of "@string" ++ [cSP]). fold (string_line v).
    repeat (rewrite <- app_assoc || rewrite <- app_comm_cons). cbn [app]. reflexivity. }
  rewrite E, lines_of_app by (apply header_no_nl_s; exact Hn). rewrite lines_of_app by apply no_nl_string.
  change (lines_of (cNL :: rest)) with ([] :: lines_of rest).
  rewrite load_string_header; [|exact Hn|lia]. rewrite load_string_text. cbn [fst snd]. apply load_empty_line.
Qed.

Lemma load_write_attr : forall type d n v rest st, mem < 2 ^ 64 -> plain (attr_name d n) -> ok_matrix rnd mem 1 [[NDbl v]] ->
  exists vals, read_matrix rnd [[NDbl v]] vals /\
    load_from type (lines_of (write_attr_scalar d n v ++ rest)) st =
    load_from (str_of "@matrix") (lines_of rest) (Store (emplace (attr_name d n) (Matrix 1 1 vals) (st_mats st)) (st_strs st)).
Proof.
  intros type d n v rest st Hm Hn Hok.
  assert (E : write_attr_scalar d n v ++ rest =
    (str_of "@matrix" ++ [cSP] ++ attr_name d n ++ [cSP] ++ show_int 1 ++ [cSP] ++ show_int 1)
    ++ cNL :: show_double v ++ cNL :: (cNL :: rest)).
  { unfold write_attr_scalar. change (str_of "@matrix ") with (str_of "@matrix" ++ [cSP]).
    change (str_of " 1 1") with ([cSP] ++ show_int 1 ++ [cSP] ++ show_int 1).
    repeat (rewrite <- app_assoc || rewrite <- app_comm_cons). cbn [app]. reflexivity. }
  rewrite E, lines_of_app by (apply header_no_nl_m; exact Hn).
  rewrite lines_of_app by (apply not_white_nl, show_double_chars).
  change (lines_of (cNL :: rest)) with ([] :: lines_of rest).
  rewrite load_matrix_header; [|exact Hn|lia|lia].
  destruct Hok as (_ & _ & Hr & H4 & _). cbn [length] in H4. change (Z.of_nat 1) with 1 in H4.
  destruct (get_double_show [] (NDbl v) [] (fun c H => match H with end) ends_nil
             (Hr [NDbl v] (NDbl v) (or_introl eq_refl) (or_introl eq_refl))) as [w [P V]].
  cbn [app show_num] in P. rewrite app_nil_r in P.
  exists [[w]]. split; [repeat constructor; exact V|].
  unfold load_matrix. change ((1 * 1) mod 2 ^ 64) with 1.
  replace (mem <? 1) with false by (symmetry; apply Z.ltb_ge; lia). change (1 =? 0) with false. cbv iota.
  change (Z.to_nat 1) with 1%nat. cbn [load_rows]. rewrite load_row_S. change (1 <=? 0) with false. cbv iota.
  rewrite P. cbn [load_row obind fst snd]. apply load_empty_line.
Qed.

(** * Numbers that are not finite *)
Lemma get_double_nonfin : forall ws x rest, (forall c, In c ws -> white c) -> get_double rnd (ws ++ show_nonfin x ++ rest) = None.
Proof.
  intros ws x rest Hw. unfold get_double, parse_double. rewrite skip_spaces_app; [|exact Hw|].
  - destruct x as [[|]|[|]]; reflexivity.
  - intros c r E. destruct x as [[|]|[|]]; injection E; intros _ <-; intro W; apply is_space_iff in W; discriminate W.
Qed.
(** An element is either read in full or refused. *)
Lemma get_double_any : forall ws x rest, (forall c, In c ws -> white c) -> ends rest ->
  get_double rnd (ws ++ show_num x ++ rest) = None \/ exists v, get_double rnd (ws ++ show_num x ++ rest) = Some (v, rest).
Proof.
  intros ws [z|q|x] rest Hw He; cbn [show_num].
  - unfold get_double. rewrite parse_show_int by assumption. destruct (rnd (inject_Z z)) as [v|]; [right; exists v|left]; reflexivity.
  - unfold get_double. destruct (parse_show_double ws q rest Hw He) as [q' [P _]]. rewrite P.
    destruct (rnd q') as [v|]; [right; exists v|left]; reflexivity.
  - left. apply get_double_nonfin. exact Hw.
Qed.
Lemma load_row_any : forall row ws alloc idx tail, (forall c, In c ws -> white c) -> idx + Z.of_nat (length row) <= alloc ->
  let o := load_row rnd alloc idx (length row) (ws ++ flat_map (fun x => show_num x ++ [cSP]) row ++ tail) in
  (o = Throw \/ exists vs, o = Ok vs) /\ ((exists x, In (NNon x) row) -> o = Throw).
Proof.
  induction row as [|x row IH]; intros ws alloc idx tail Hw Hl.
  - split; [right; exists []; reflexivity|intros [x []]].
  - cbn [length flat_map]. rewrite load_row_S. cbn [length] in Hl.
    replace (alloc <=? idx) with false by (symmetry; apply Z.leb_gt; lia). rewrite <- !app_assoc.
    destruct (IH [cSP] alloc (idx + 1) tail white_sp ltac:(lia)) as [I1 I2].
    destruct (get_double_any ws x ([cSP] ++ flat_map (fun x => show_num x ++ [cSP]) row ++ tail) Hw (ends_sp _)) as [P|[v P]].
    + rewrite P. split; [left; reflexivity|reflexivity].
    + split.
      * rewrite P. destruct I1 as [E|[vs E]]; rewrite E; [left; reflexivity|right; eexists; reflexivity].
      * intros [y [->|Hy]].
        -- cbn [show_num] in P. rewrite get_double_nonfin in P by exact Hw. discriminate P.
        -- rewrite P, (I2 (ex_intro _ y Hy)). reflexivity.
Qed.
Lemma load_rows_nonfin : forall rows nc alloc idx rest, (forall r, In r rows -> length r = nc) ->
  idx + Z.of_nat (length rows) * Z.of_nat nc <= alloc -> (exists r x, In r rows /\ In (NNon x) r) ->
  load_rows rnd alloc idx (length rows) nc (map row_line rows ++ rest) = Throw.
Proof.
  induction rows as [|row rows IH]; intros nc alloc idx rest Hlen Hl (r & x & Hr & Hx); [destruct Hr|].
  cbn [length map app load_rows]. cbn [length] in Hl.
  assert (Lr : length row = nc) by (apply Hlen; left; reflexivity).
  destruct (load_row_any row [] alloc idx [] (fun c H => match H with end)) as [A B]; [rewrite Lr; nia|].
  rewrite app_nil_r in A, B. cbn [app] in A, B. rewrite Lr in A, B. unfold row_line at 1.
  destruct A as [A|[vs A]]; [rewrite A; reflexivity|]. destruct Hr as [->|Hr].
  - rewrite B by (exists x; exact Hx). reflexivity.
  - rewrite A. cbn [obind]. rewrite (IH nc alloc (idx + Z.of_nat nc) rest); [reflexivity| |lia|].
    + intros r' H. apply Hlen. right. exact H.
    + exists r, x. split; [exact Hr|exact Hx].
Qed.
Lemma load_write_nonfin : forall c type rest st, writes_nonfinite c ->
  load_from type (lines_of (write_call c ++ rest)) st = Some Throw.
Proof.
  intros c type rest st (n & nc & rows & r & x & D & Hn & Hlen & Hl & Hr & Hx).
  assert (G : forall name rows', plain name -> rows' = rows ->
    load_from type (lines_of (write_matrix name nc rows' ++ rest)) st = Some Throw).
  { intros name rows' Hp ->.
    assert (E : write_matrix name nc rows ++ rest =
      (str_of "@matrix" ++ [cSP] ++ name ++ [cSP] ++ show_int (Z.of_nat (length rows)) ++ [cSP] ++ show_int (Z.of_nat nc))
      ++ cNL :: flat_map write_row rows ++ (cNL :: rest)).
    { unfold write_matrix. change (str_of "@matrix ") with (str_of "@matrix" ++ [cSP]).
      repeat (rewrite <- app_assoc || rewrite <- app_comm_cons). cbn [app]. reflexivity. }
    assert (L : (1 <= length rows)%nat) by (destruct rows; [destruct Hr|cbn [length]; lia]).
    assert (L2 : (1 <= nc)%nat) by (rewrite <- (Hlen r Hr); destruct r; [destruct Hx|cbn [length]; lia]).
    rewrite E, lines_of_app by (apply header_no_nl_m; exact Hp). rewrite lines_rows.
    rewrite load_matrix_header; [|exact Hp|nia|nia]. unfold load_matrix. rewrite Z.mod_small by nia.
    destruct (mem <? Z.of_nat (length rows)); [reflexivity|]. destruct (mem <? Z.of_nat (length rows) * Z.of_nat nc); [reflexivity|].
    replace (Z.of_nat (length rows) =? 0) with false by (symmetry; apply Z.eqb_neq; lia).
    rewrite !Nat2Z.id. rewrite load_rows_nonfin; [reflexivity|exact Hlen|lia|exists r, x; split; assumption]. }
  destruct c as [m nc' rows'|m nc' rows'|m l|m v|m v|d m v|d m y|d m v|m]; cbn [defines write_call] in *; try discriminate D.
  - injection D; intros -> -> ->. apply G; [exact Hn|reflexivity].
  - injection D; intros -> -> ->. apply G; [exact Hn|reflexivity].
  - injection D; intros E1 E2 ->. rewrite E2. apply G; [exact Hn|exact E1].
  - injection D; intros E1 E2 ->. rewrite E2. apply G; [exact Hn|exact E1].
  - injection D; intros E1 E2 E3. subst rows. destruct Hr as [<-|[]]. destruct Hx as [Hx|[]]. discriminate Hx.
  - injection D; intros E1 E2 E3. subst rows nc n.
    assert (E : write_attr_nonfin d m y ++ rest =
      (str_of "@matrix" ++ [cSP] ++ attr_name d m ++ [cSP] ++ show_int 1 ++ [cSP] ++ show_int 1)
      ++ cNL :: show_nonfin y ++ cNL :: (cNL :: rest)).
    { unfold write_attr_nonfin. change (str_of "@matrix ") with (str_of "@matrix" ++ [cSP]).
      change (str_of " 1 1") with ([cSP] ++ show_int 1 ++ [cSP] ++ show_int 1).
      repeat (rewrite <- app_assoc || rewrite <- app_comm_cons). cbn [app]. reflexivity. }
    rewrite E, lines_of_app by (apply header_no_nl_m; exact Hn).
    rewrite lines_of_app by (apply not_white_nl, show_nonfin_chars).
    rewrite load_matrix_header; [|exact Hn|lia|lia].
    unfold load_matrix. change ((1 * 1) mod 2 ^ 64) with 1. destruct (mem <? 1); [reflexivity|]. change (1 =? 0) with false. cbv iota.
    change (Z.to_nat 1) with 1%nat. cbn [load_rows]. rewrite load_row_S. change (1 <=? 0) with false. cbv iota.
    pose proof (get_double_nonfin [] y [] (fun c H => match H with end)) as P. rewrite app_nil_r in P. cbn [app] in P.
    rewrite P. reflexivity.
Qed.

Lemma load_write_call : forall c type rest st, mem < 2 ^ 64 -> ok_call rnd mem c ->
  exists type' st', adds c st st' /\
    load_from type (lines_of (write_call c ++ rest)) st = load_from type' (lines_of rest) st'.
Proof.
  intros c type rest st Hm Hok. unfold ok_call in Hok. unfold adds.
  destruct c as [n nc rows|n nc rows|n l|n v|n v|d n v|d n x|d n v|n]; cbn [defines write_call] in *.
  - destruct Hok as [Hn Hm2]. destruct (load_write_matrix type n nc rows rest st Hm Hn Hm2) as [vals [V E]].
    eexists; eexists. split; [exists vals; split; [exact V|reflexivity]|exact E].
  - destruct Hok as [Hn Hm2]. destruct (load_write_matrix type n nc rows rest st Hm Hn Hm2) as [vals [V E]].
    eexists; eexists. split; [exists vals; split; [exact V|reflexivity]|exact E].
  - destruct Hok as [Hn Hm2]. destruct (load_write_matrix type n _ _ rest st Hm Hn Hm2) as [vals [V E]].
    eexists; eexists. split; [exists vals; split; [exact V|reflexivity]|exact E].
  - destruct Hok as [Hn Hm2]. destruct (load_write_matrix type n _ _ rest st Hm Hn Hm2) as [vals [V E]].
    eexists; eexists. split; [exists vals; split; [exact V|reflexivity]|exact E].
  - destruct Hok as [Hn Hl]. eexists; eexists. split; [reflexivity|apply load_write_string; assumption].
  - destruct Hok as [Hn Hm2]. destruct (load_write_attr type d n v rest st Hm Hn Hm2) as [vals [V E]].
    eexists; eexists. split; [exists vals; split; [exact V|reflexivity]|exact E].
  - exfalso. destruct Hok as [_ (_ & _ & H & _)]. exact (H [NNon x] (NNon x) (or_introl eq_refl) (or_introl eq_refl)).
  - destruct Hok as [Hn Hl]. eexists; eexists. split; [reflexivity|apply load_write_string; assumption].
  - exists type, st. split; reflexivity.
Qed.

(** * Whole files *)
Lemma find_emplace : forall (A : Type) k k' (v : A) l,
  find k (emplace k' v l) = match find k l with Some x => Some x | None => if str_eqb k k' then Some v else None end.
Proof.
  intros A k k' v l. unfold emplace. destruct (find k' l) as [y|] eqn:E.
  - destruct (find k l) eqn:E2; [reflexivity|]. destruct (str_eqb_spec k k') as [Ek|Ek]; [subst; congruence|reflexivity].
  - clear E. induction l as [|[k0 v0] l IH]; cbn [find app]; [reflexivity|].
    destruct (str_eqb k k0); [reflexivity|exact IH].
Qed.

Definition agree_mat (w : option (nat * list (list snum))) (m : option matrix) : Prop :=
  match w, m with
  | None, None => True
  | Some (nc, rows), Some m => m_nrows m = Z.of_nat (length rows) /\ m_ncols m = Z.of_nat nc /\ read_matrix rnd rows (m_rows m)
  | _, _ => False
  end.

Lemma load_write_file_from : forall cs type st, mem < 2 ^ 64 -> (forall c, In c cs -> ok_call rnd mem c) ->
  exists st', load_from type (lines_of (write_file cs)) st = Some (Ok st') /\
    (forall n, match find n (st_mats st) with
               | Some m => find n (st_mats st') = Some m
               | None => agree_mat (first_matrix n cs) (find n (st_mats st'))
               end) /\
    (forall n, find n (st_strs st') = match find n (st_strs st) with Some s => Some s | None => first_string n cs end).
Proof.
  induction cs as [|c cs IH]; intros type st Hm Hok.
  - exists st. split; [reflexivity|]. split; intro n; cbn [first_matrix first_string].
    + destruct (find n (st_mats st)); [reflexivity|exact I].
    + destruct (find n (st_strs st)); reflexivity.
  - cbn [write_file flat_map]. change (flat_map write_call cs) with (write_file cs).
    destruct (load_write_call c type (write_file cs) st Hm (Hok c (or_introl eq_refl))) as [t' [st1 [Ha E]]].
    rewrite E. destruct (IH t' st1 Hm (fun x Hx => Hok x (or_intror Hx))) as [st' [L [M S]]].
    exists st'. split; [exact L|]. clear E L IH. unfold adds in Ha. cbn [first_matrix first_string].
    destruct (defines c) as [[n0 [nc rows|s]]|].
    + destruct Ha as [vals [V Ha]]. subst st1. cbn [st_mats st_strs] in *. split; [|exact S].
      intro n. specialize (M n). rewrite find_emplace in M.
      destruct (find n (st_mats st)) as [m|]; [exact M|].
      destruct (str_eqb n n0); [|exact M]. rewrite M. cbn [agree_mat m_nrows m_ncols m_rows]. auto.
    + subst st1. cbn [st_mats st_strs] in *. split; [exact M|].
      intro n. specialize (S n). rewrite find_emplace in S.
      destruct (find n (st_strs st)) as [m|]; [exact S|].
      destruct (str_eqb n n0); exact S.
    + subst st1. split; [exact M|exact S].
Qed.

Lemma load_nonfin_from : forall pre c post type st, mem < 2 ^ 64 -> (forall c, In c pre -> ok_call rnd mem c) -> writes_nonfinite c ->
  load_from type (lines_of (write_file (pre ++ c :: post))) st = Some Throw.
Proof.
  induction pre as [|d pre IH]; intros c post type st Hm Hok Hc.
  - cbn [app write_file flat_map]. apply load_write_nonfin. exact Hc.
  - cbn [app write_file flat_map]. change (flat_map write_call (pre ++ c :: post)) with (write_file (pre ++ c :: post)).
    destruct (load_write_call d type (write_file (pre ++ c :: post)) st Hm (Hok d (or_introl eq_refl))) as [t' [st1 [_ E]]].
    rewrite E. apply IH; [exact Hm|intros x Hx; apply Hok; right; exact Hx|exact Hc].
Qed.
Lemma load_nonfin : forall pre c post, mem < 2 ^ 64 -> (forall c, In c pre -> ok_call rnd mem c) -> writes_nonfinite c ->
  load rnd mem (write_file (pre ++ c :: post)) = Some Throw.
Proof. intros. apply load_nonfin_from; assumption. Qed.

Lemma load_write_file : forall cs, mem < 2 ^ 64 -> (forall c, In c cs -> ok_call rnd mem c) ->
  exists st, load rnd mem (write_file cs) = Some (Ok st) /\
    (forall n, agree_mat (first_matrix n cs) (find n (st_mats st))) /\
    (forall n, find n (st_strs st) = first_string n cs).
Proof.
  intros cs Hm Hok. destruct (load_write_file_from cs [] (Store [] []) Hm Hok) as [st [L [M S]]].
  exists st. split; [exact L|]. split; [exact M|exact S].
Qed.
End Load.
