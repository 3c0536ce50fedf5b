(** Proofs about configuration objects. *)
From Verif Require Import Base ConfigModel LexSpec LexProofs InterpSpec InterpProofs ConfigProofs PosModel PosSpec PosProofs PosProofs3 ConfObjModel ConfObjSpec.

(** ** Lists *)
Lemma upd_nth_same : forall A (l : list A) i f x, nth_error l i = Some x -> nth_error (upd_nth i f l) i = Some (f x).
Proof.
  induction l as [|a l IH]; intros [|i] f x H; try discriminate.
  - cbn in H |- *. injection H as ->. reflexivity.
  - cbn in H |- *. apply IH. exact H.
Qed.
Lemma upd_nth_other : forall A (l : list A) i j f, i <> j -> nth_error (upd_nth i f l) j = nth_error l j.
Proof.
  induction l as [|a l IH]; intros [|i] [|j] f H; try reflexivity; try (exfalso; apply H; reflexivity).
  cbn. apply IH. intro E. apply H. rewrite E. reflexivity.
Qed.

(** ** Standard input *)
Lemma cin_loop_reads : forall fuel t buf, (length t + 2 <= fuel)%nat ->
  cin_loop fuel (mkCin t false) buf = Some (mkCin [] true, Some (match buf with None => t | Some b => b ++ t end)).
Proof.
  induction fuel as [|fuel IH]; intros t buf H; [lia|].
  cbn [cin_loop cin_eof]. unfold cin_read. cbn [cin_rest].
  destruct (length t <? chunk)%nat eqn:E.
  - apply Nat.ltb_lt in E. destruct fuel as [|fuel]; [lia|].
    cbn [cin_loop cin_eof].
    rewrite firstn_all2 by lia. rewrite skipn_all2 by lia. reflexivity.
  - apply Nat.ltb_ge in E.
    rewrite IH.
    + f_equal. f_equal. f_equal. destruct buf as [b|].
      * rewrite <- app_assoc, firstn_skipn. reflexivity.
      * rewrite firstn_skipn. reflexivity.
    + rewrite skipn_length. unfold chunk in *. lia.
Qed.
Lemma upto_nul_cut : forall t u, cut_at_nul t u <-> upto_nul t = u.
Proof.
  intros t u. split.
  - intros [H [->|[r ->]]].
    + induction u as [|c u IH]; [reflexivity|]. cbn.
      destruct (Ascii.eqb_spec c cNUL) as [->|N]; [destruct H; left; reflexivity|].
      f_equal. apply IH. intro Q. apply H. right. exact Q.
    + induction u as [|c u IH]; [reflexivity|]. cbn [app upto_nul].
      destruct (Ascii.eqb_spec c cNUL) as [->|N]; [destruct H; left; reflexivity|].
      f_equal. apply IH. intro Q. apply H. right. exact Q.
  - intros <-. induction t as [|c t IH]; [split; [intros []|left; reflexivity]|].
    cbn. destruct (Ascii.eqb_spec c cNUL) as [->|N].
    + split; [intros []|right; exists t; reflexivity].
    + destruct IH as [A B]. split.
      * intros [E|Q]; [exact (N E)|exact (A Q)].
      * destruct B as [B|[r B]]; [left; cbn; rewrite <- B; reflexivity|right; exists r; cbn; rewrite <- B; reflexivity].
Qed.
Lemma conf_stdin_open : forall fs d c t,
  conf_stdin fs d c (mkCin t false) =
  obind (conf_string fs d c (str_of "stdin") (upto_nul t)) (fun r =>
    Ok (match r with None => None | Some (c', o) => Some (c', o, mkCin [] true) end)).
Proof.
  intros fs d c t. unfold conf_stdin. cbn [cin_rest]. rewrite cin_loop_reads by lia. reflexivity.
Qed.
Lemma conf_stdin_eof : forall fs d c t, conf_stdin fs d c (mkCin t true) = UB.
Proof. reflexivity. Qed.

(** ** One call on an object *)
Definition conf_after (fs : filesys) (d : nat) (o : cop) (text : str) (c c' : conf) (b : cobs) : Prop :=
  ctypes c' = ctypes c /\
  (cerr c' = true <-> cerr c = true \/ printed b <> []) /\
  (returned b = false -> croot c' = croot c) /\
  (returned b = true -> from_string (ctypes c) fs d text = FOk (croot c') (match printed b with [] => false | _ => true end)) /\
  got_open b = true.
Lemma err_after : forall (e : bool) (log : list report),
  match log with [] => e | _ => true end = true <-> e = true \/ log <> [].
Proof.
  intros e [|r log]; split.
  - auto.
  - intros [H|H]; [exact H|destruct H; reflexivity].
  - intros _. right. discriminate.
  - reflexivity.
Qed.
Lemma conf_string_after : forall fs d c src text c' b, conf_string fs d c src text = Ok (Some (c', b)) ->
  conf_after fs d (CFromString 0 text src) text c c' b /\
  cfile c' = match b with BMissing _ _ f _ => f | _ => cfile c end /\
  match b with BRead _ | BNotClosed _ _ _ _ | BMissing _ _ _ _ => True | _ => False end.
Proof.
  intros fs d c src text c' b H. unfold conf_string in H.
  assert (Q := read_script_erase (ctypes c) fs d (cfile c) src text).
  destruct (read_script (ctypes c) fs d (cfile c) src text) as [l k f n| |log res] eqn:E.
  - injection H as <- <-. unfold conf_after. cbn.
    repeat split; auto; try discriminate. intros [H|H]; [exact H|destruct H; reflexivity].
  - discriminate.
  - destruct res as [root|l k f| |]; try discriminate.
    + injection H as <- <-. unfold conf_after. cbn [ctypes cerr croot cfile printed returned got_open].
      split; [|split; [reflexivity|exact I]].
      split; [reflexivity|]. split; [apply err_after|]. split; [discriminate|]. split; [intros _; exact Q|reflexivity].
    + injection H as <- <-. unfold conf_after. cbn [ctypes cerr croot cfile printed returned got_open].
      split; [|split; [reflexivity|exact I]].
      split; [reflexivity|]. split; [apply err_after|]. split; [reflexivity|]. split; [discriminate|reflexivity].
Qed.
Lemma conf_file_after : forall fs d c name c' b, conf_file fs d c name = Ok (Some (c', b)) ->
  (cfile c <> [] /\ c' = c /\ b = BOpened) \/
  (cfile c = [] /\ fs name = None /\ c' = c /\ b = BNoFile) \/
  (cfile c = [] /\ exists text, fs name = Some text /\
     conf_string fs d (mkConf name (croot c) (ctypes c) (cerr c)) name text = Ok (Some (c', b))).
Proof.
  intros fs d c name c' b H. unfold conf_file in H.
  destruct (cfile c) as [|x f] eqn:F.
  - right. destruct (fs name) as [text|] eqn:E.
    + right. split; [reflexivity|]. exists text. split; [reflexivity|exact H].
    + left. injection H as <- <-. auto.
  - left. injection H as <- <-. split; [discriminate|auto].
Qed.

(** Where a failed read leaves the name of the file. *)
Lemma plex_loop_infile : forall types src infile include, 
  (forall nm l k f n, include nm = Some (PLexThrow l k f n) -> f <> []) ->
  forall fuel st buffer rt l k f n,
  plex_loop types src infile include fuel st buffer rt = PLexThrow l k f n -> f = infile \/ f <> [].
Proof.
  intros types src infile include Hi. induction fuel as [|fuel IH]; intros st buffer rt l k f n H; [discriminate|].
  cbn [plex_loop] in H.
  destruct (pnextc (pinstring st) (pprevws st) (prest st) (pln st) (pcl st)) as [pw ln cl|c rest pw ln cl|] eqn:E;
    [discriminate| |discriminate].
  destruct (Ascii.eqb c cNUL); [discriminate|].
  destruct (pinstring st && negb (Ascii.eqb c cQUOTE)); [exact (IH _ _ _ _ _ _ _ H)|].
  destruct (pininclude st && negb (Ascii.eqb c ">"%char)); [exact (IH _ _ _ _ _ _ _ H)|].
  destruct (Ascii.eqb c cQUOTE); [exact (IH _ _ _ _ _ _ _ H)|].
  destruct (Ascii.eqb c "<"%char); [exact (IH _ _ _ _ _ _ _ H)|].
  destruct (Ascii.eqb c ">"%char).
  - destruct (include buffer) as [[tk a b e|l' k' f' n'|]|] eqn:E2.
    + exact (IH _ _ _ _ _ _ _ H).
    + injection H as <- <- <- <-. right. exact (Hi _ _ _ _ _ E2).
    + discriminate.
    + injection H as <- <- <- <-. left. reflexivity.
  - destruct (is_punct c); [exact (IH _ _ _ _ _ _ _ H)|].
    destruct (Ascii.eqb c ","%char || Ascii.eqb c cSP); exact (IH _ _ _ _ _ _ _ H).
Qed.
Lemma plex_infile : forall types fs src, fs [] = None -> forall d infile text l k f n,
  plex types fs src d infile text = PLexThrow l k f n -> f = infile \/ f <> [].
Proof.
  intros types fs src H0. induction d as [|d IH]; intros infile text l k f n H; [discriminate|].
  cbn [plex] in H. refine (plex_loop_infile _ _ _ _ _ _ _ _ _ _ _ _ _ H).
  intros nm l' k' f' n' E. destruct (fs nm) as [c|] eqn:F; [|discriminate]. injection E as E.
  destruct (IH _ _ _ _ _ _ E) as [->|Q]; [|exact Q]. intros ->. rewrite H0 in F. discriminate.
Qed.
Lemma conf_string_keeps_file : forall fs d c src text c' b, fs [] = None -> cfile c <> [] ->
  conf_string fs d c src text = Ok (Some (c', b)) -> cfile c' <> [].
Proof.
  intros fs d c src text c' b H0 Hc H. unfold conf_string, read_script in H.
  destruct (plex (ctypes c) fs src d (cfile c) text) as [tk x y z|l k f n|] eqn:E.
  - destruct (pinterpret (ctypes c) tk) as [log [root|l k f| |]]; try discriminate; injection H as <- <-; exact Hc.
  - injection H as <- <-. cbn. destruct (plex_infile _ _ _ H0 _ _ _ _ _ _ _ E) as [->|Q]; assumption.
  - discriminate.
Qed.

(** ** Steps and runs *)
Lemma c_step_inv : forall d w o w' b i c, c_step d w o = Ok (Some (w', b)) -> nth_error (w_objs w) i = Some c ->
  exists c', nth_error (w_objs w') i = Some c' /\
    (acts_on o <> Some i -> c' = c) /\
    (acts_on o = Some i ->
      match o with
      | CRegister _ name =>
          (c' = c /\ b = BDuplicate /\ In name (ctypes c) /\ w' = w) \/
          (~ In name (ctypes c) /\ c' = mkConf (cfile c) (croot c) (ctypes c ++ [name]) (cerr c) /\ b = BType (length (ctypes c)))
      | CFromFile _ name => conf_file (w_fs w) d c name = Ok (Some (c', b))
      | CFromString _ text src => conf_string (w_fs w) d c src text = Ok (Some (c', b))
      | CFromStdin _ => cin_eof (w_cin w) = false /\ cin_eof (w_cin w') = true /\
          conf_string (w_fs w) d c (str_of "stdin") (upto_nul (cin_rest (w_cin w))) = Ok (Some (c', b))
      | CSetError _ => c' = mkConf (cfile c) (croot c) (ctypes c) true /\ b = BDone
      | _ => False
      end).
Proof.
  intros d w o w' b i c H Hi.
  assert (PUT : forall j x y, nth_error (w_objs w) j = Some x ->
            exists c', nth_error (upd_nth j (fun _ => y) (w_objs w)) i = Some c' /\ (Some j <> Some i -> c' = c) /\ (j = i -> c' = y /\ x = c)).
  { intros j x y Hx. destruct (Nat.eq_dec j i) as [->|N].
    - exists y. split; [rewrite (upd_nth_same _ _ _ _ _ Hx); reflexivity|]. split; [intro Q; destruct Q; reflexivity|].
      intros _. split; [reflexivity|]. rewrite Hx in Hi. injection Hi as ->. reflexivity.
    - exists c. split; [rewrite upd_nth_other by exact N; exact Hi|]. split; [reflexivity|intro E; destruct (N E)]. }
  unfold c_step, the_obj in H. destruct o as [|j|j name|j name|j text src|j|j|name text|text]; cbn [acts_on].
  - injection H as <- <-. exists c. split; [cbn [w_objs]; rewrite nth_error_app1; [exact Hi|apply nth_error_Some; rewrite Hi; discriminate]|].
    split; [reflexivity|discriminate].
  - destruct (nth_error (w_objs w) j) as [x|] eqn:Hx; cbn [obind] in H; [|discriminate].
    injection H as <- <-. exists c. split; [cbn [w_objs]; rewrite nth_error_app1; [exact Hi|apply nth_error_Some; rewrite Hi; discriminate]|].
    split; [reflexivity|discriminate].
  - destruct (nth_error (w_objs w) j) as [x|] eqn:Hx; cbn [obind] in H; [|discriminate].
    unfold register_block_type in H.
    destruct (is_block_type (ctypes x) name) eqn:EB.
    + injection H as <- <-. exists c. split; [exact Hi|]. split; [reflexivity|]. intro Q. injection Q as ->.
      rewrite Hx in Hi. injection Hi as ->. left. split; [reflexivity|]. split; [reflexivity|].
      split; [|reflexivity]. apply is_block_type_In. exact EB.
    + injection H as <- <-. destruct (PUT j x (mkConf (cfile x) (croot x) (ctypes x ++ [name]) (cerr x)) Hx) as (c' & A & B & C).
      exists c'. split; [exact A|]. split; [exact B|]. intro Q. injection Q as ->. destruct (C eq_refl) as [-> ->].
      right. split; [intro Q; apply is_block_type_In in Q; rewrite EB in Q; discriminate|].
      split; [reflexivity|]. f_equal. rewrite app_length. cbn. lia.
  - destruct (nth_error (w_objs w) j) as [x|] eqn:Hx; cbn [obind] in H; [|discriminate].
    destruct (conf_file (w_fs w) d x name) as [[[y b']|]| |] eqn:E; cbn [obind] in H; try discriminate.
    injection H as <- <-. destruct (PUT j x y Hx) as (c' & A & B & C).
    exists c'. split; [exact A|]. split; [exact B|]. intro Q. injection Q as ->. destruct (C eq_refl) as [-> ->]. exact E.
  - destruct (nth_error (w_objs w) j) as [x|] eqn:Hx; cbn [obind] in H; [|discriminate].
    destruct (conf_string (w_fs w) d x src text) as [[[y b']|]| |] eqn:E; cbn [obind] in H; try discriminate.
    injection H as <- <-. destruct (PUT j x y Hx) as (c' & A & B & C).
    exists c'. split; [exact A|]. split; [exact B|]. intro Q. injection Q as ->. destruct (C eq_refl) as [-> ->]. exact E.
  - destruct (nth_error (w_objs w) j) as [x|] eqn:Hx; cbn [obind] in H; [|discriminate].
    destruct (w_cin w) as [t [|]] eqn:EC; [rewrite conf_stdin_eof in H; discriminate|].
    rewrite conf_stdin_open in H.
    destruct (conf_string (w_fs w) d x (str_of "stdin") (upto_nul t)) as [[[y b']|]| |] eqn:E; cbn [obind] in H; try discriminate.
    injection H as <- <-. destruct (PUT j x y Hx) as (c' & A & B & C).
    exists c'. split; [exact A|]. split; [exact B|]. intro Q. injection Q as ->. destruct (C eq_refl) as [-> ->].
    cbn. auto.
  - destruct (nth_error (w_objs w) j) as [x|] eqn:Hx; cbn [obind] in H; [|discriminate].
    injection H as <- <-. destruct (PUT j x (mkConf (cfile x) (croot x) (ctypes x) true) Hx) as (c' & A & B & C).
    exists c'. split; [exact A|]. split; [exact B|]. intro Q. injection Q as ->. destruct (C eq_refl) as [-> ->]. auto.
  - injection H as <- <-. exists c. split; [exact Hi|]. split; [reflexivity|discriminate].
  - injection H as <- <-. exists c. split; [exact Hi|]. split; [reflexivity|discriminate].
Qed.

Lemma c_run_cons : forall d w o r w'' bs, c_run d w (o :: r) = Ok (Some (w'', bs)) ->
  exists w' b bs', c_step d w o = Ok (Some (w', b)) /\ c_run d w' r = Ok (Some (w'', bs')) /\ bs = b :: bs'.
Proof.
  intros d w o r w'' bs H. cbn [c_run] in H.
  destruct (c_step d w o) as [[[w' b]|]| |]; cbn [obind] in H; try discriminate.
  destruct (c_run d w' r) as [[[w3 bs']|]| |] eqn:E; cbn [obind] in H; try discriminate.
  injection H as <- <-. exists w', b, bs'. auto.
Qed.
Lemma c_run_app : forall d a b w w'' bs, c_run d w (a ++ b) = Ok (Some (w'', bs)) ->
  exists w' ba bb, c_run d w a = Ok (Some (w', ba)) /\ c_run d w' b = Ok (Some (w'', bb)) /\ bs = ba ++ bb /\ length ba = length a.
Proof.
  intros d. induction a as [|o a IH]; intros b w w'' bs H.
  - exists w, [], bs. auto.
  - cbn [app] in H. destruct (c_run_cons _ _ _ _ _ _ H) as (w1 & b1 & bs1 & S1 & R1 & ->).
    destruct (IH _ _ _ _ R1) as (w2 & ba & bb & A & B & -> & L).
    exists w2, (b1 :: ba), bb. split; [|split; [exact B|split; [reflexivity|cbn; rewrite L; reflexivity]]].
    cbn [c_run]. rewrite S1. cbn [obind]. rewrite A. reflexivity.
Qed.

(** What the calls on an object do, in the words of the specification. *)
Lemma step_on : forall d w o w' b i c, c_step d w o = Ok (Some (w', b)) -> nth_error (w_objs w) i = Some c ->
  exists c', nth_error (w_objs w') i = Some c' /\
    (acts_on o <> Some i -> c' = c) /\
    (cerr c' = true <-> cerr c = true \/ (acts_on o = Some i /\ (o = CSetError i \/ printed b <> []))) /\
    (ctypes c' = ctypes c ++ registered i [(o, b)]) /\
    (acts_on o <> Some i \/ returned b = false -> croot c' = croot c) /\
    (acts_on o = Some i -> returned b = true ->
       exists text, reads_text w o text /\
         from_string (ctypes c) (w_fs w) d text = FOk (croot c') (match printed b with [] => false | _ => true end)).
Proof.
  intros d w o w' b i c H Hi. destruct (c_step_inv _ _ _ _ _ _ _ H Hi) as (c' & A & B & C).
  exists c'. split; [exact A|]. split; [exact B|].
  assert (DEC : acts_on o = Some i \/ acts_on o <> Some i).
  { destruct (acts_on o) as [j|]; [|right; discriminate]. destruct (Nat.eq_dec j i) as [->|N]; [left; reflexivity|].
    right. intro Q. injection Q as ->. exact (N eq_refl). }
  destruct DEC as [On|Off].
  2:{ rewrite (B Off). split; [split; [auto|intros [Q|[Q _]]; [exact Q|destruct (Off Q)]]|].
      split; [|split; [reflexivity|intro Q; destruct (Off Q)]].
      assert (R0 : registered i [(o, b)] = []).
      { destruct o as [|j|j n|j n|j t s|j|j|n t|t]; try reflexivity. cbn [registered].
        destruct b; try reflexivity. destruct (Nat.eqb_spec j i) as [->|N]; [destruct (Off eq_refl)|reflexivity]. }
      rewrite R0, app_nil_r. reflexivity. }
  specialize (C On). rewrite On.
  assert (STR : forall fs src text c0 oo, cerr c0 = cerr c -> ctypes c0 = ctypes c -> croot c0 = croot c ->
     conf_string fs d c0 src text = Ok (Some (c', b)) ->
     (cerr c' = true <-> cerr c = true \/ (Some i = Some i /\ (oo = CSetError i \/ printed b <> []))) /\
     ctypes c' = ctypes c /\ (Some i <> Some i \/ returned b = false -> croot c' = croot c) /\
     (returned b = true -> from_string (ctypes c) fs d text = FOk (croot c') (match printed b with [] => false | _ => true end)) \/
     oo = CSetError i).
  { intros fs src text c0 oo E1 E2 E3 E4. destruct (conf_string_after _ _ _ _ _ _ _ E4) as [(T & ER & R1 & R2 & _) _].
    assert (DO : oo = CSetError i \/ oo <> CSetError i).
    { destruct oo as [| | | | | |j| |]; try (right; discriminate).
      destruct (Nat.eq_dec j i) as [->|N]; [left; reflexivity|right; intro Q; injection Q as ->; exact (N eq_refl)]. }
    destruct DO as [DO|DO]; [right; exact DO|left].
    rewrite E1 in ER. rewrite E2 in T, R2. rewrite E3 in R1.
    split; [rewrite ER; split; [intros [Q|Q]; auto|intros [Q|[_ [Q|Q]]]; [auto|destruct (DO Q)|auto]]|].
    split; [exact T|]. split; [intros [Q|Q]; [destruct (Q eq_refl)|exact (R1 Q)]|exact R2]. }
  destruct o as [|j|j name|j name|j text src|j|j|name text|text]; try discriminate; cbn [acts_on] in On; injection On as ->.
  - destruct C as [(-> & -> & _ & _)|(_ & -> & ->)].
    + cbn. split; [split; [auto|intros [Q|[_ [Q|Q]]]; [exact Q|discriminate|destruct (Q eq_refl)]]|].
      split; [rewrite app_nil_r; reflexivity|]. split; [reflexivity|discriminate].
    + cbn [cerr ctypes croot printed returned registered]. rewrite Nat.eqb_refl.
      split; [split; [auto|intros [Q|[_ [Q|Q]]]; [exact Q|discriminate|destruct (Q eq_refl)]]|].
      split; [reflexivity|]. split; [reflexivity|discriminate].
  - destruct (conf_file_after _ _ _ _ _ _ C) as [(_ & -> & ->)|[(_ & _ & -> & ->)|(_ & text & F & E)]].
    + cbn. split; [split; [auto|intros [Q|[_ [Q|Q]]]; [exact Q|discriminate|destruct (Q eq_refl)]]|].
      split; [rewrite app_nil_r; reflexivity|]. split; [reflexivity|discriminate].
    + cbn. split; [split; [auto|intros [Q|[_ [Q|Q]]]; [exact Q|discriminate|destruct (Q eq_refl)]]|].
      split; [rewrite app_nil_r; reflexivity|]. split; [reflexivity|discriminate].
    + destruct (STR (w_fs w) name text (mkConf name (croot c) (ctypes c) (cerr c)) (CFromFile i name) eq_refl eq_refl eq_refl E) as [(P1 & P2 & P3 & P4)|Q]; [|discriminate].
      split; [exact P1|]. split; [cbn [registered]; rewrite app_nil_r; exact P2|]. split; [exact P3|].
      intros _ Q. exists text. split; [exact F|exact (P4 Q)].
  - destruct (STR (w_fs w) src text c (CFromString i text src) eq_refl eq_refl eq_refl C) as [(P1 & P2 & P3 & P4)|Q]; [|discriminate].
    split; [exact P1|]. split; [cbn [registered]; rewrite app_nil_r; exact P2|]. split; [exact P3|].
    intros _ Q. exists text. split; [reflexivity|exact (P4 Q)].
  - destruct C as (_ & _ & E).
    destruct (STR (w_fs w) _ _ c (CFromStdin i) eq_refl eq_refl eq_refl E) as [(P1 & P2 & P3 & P4)|Q]; [|discriminate].
    split; [exact P1|]. split; [cbn [registered]; rewrite app_nil_r; exact P2|]. split; [exact P3|].
    intros _ Q. eexists. split; [apply upto_nul_cut; reflexivity|exact (P4 Q)].
  - destruct C as [-> ->]. cbn. split; [split; [auto|reflexivity]|].
    split; [rewrite app_nil_r; reflexivity|]. split; [reflexivity|discriminate].
Qed.

Lemma registered_app : forall i a b, registered i (a ++ b) = registered i a ++ registered i b.
Proof.
  intros i. induction a as [|[o x] a IH]; intro b; [reflexivity|]. cbn [app].
  destruct o; try exact (IH b). destruct x; try exact (IH b).
  cbn [registered]. destruct (Nat.eqb i0 i); [cbn [app]; f_equal|]; exact (IH b).
Qed.
Lemma registered_cons : forall i x a, registered i (x :: a) = registered i [x] ++ registered i a.
Proof. intros i x a. apply (registered_app i [x] a). Qed.

Lemma run_on : forall d ops w w' bs i c, c_run d w ops = Ok (Some (w', bs)) -> nth_error (w_objs w) i = Some c ->
  exists c', nth_error (w_objs w') i = Some c' /\
    (cerr c' = true <-> cerr c = true \/
       exists o b, In (o, b) (combine ops bs) /\ acts_on o = Some i /\ (o = CSetError i \/ printed b <> [])) /\
    ctypes c' = ctypes c ++ registered i (combine ops bs) /\
    ((forall o b, In (o, b) (combine ops bs) -> acts_on o = Some i -> returned b = false) -> croot c' = croot c) /\
    ((forall o, In o ops -> acts_on o <> Some i) -> c' = c).
Proof.
  intros d. induction ops as [|o ops IH]; intros w w' bs i c H Hi.
  - cbn [c_run] in H. injection H as <- <-. exists c. split; [exact Hi|]. cbn.
    split; [split; [auto|intros [Q|(o & b & [] & _)]; exact Q]|]. rewrite app_nil_r. auto.
  - destruct (c_run_cons _ _ _ _ _ _ H) as (w1 & b1 & bs1 & S1 & R1 & ->).
    destruct (step_on _ _ _ _ _ _ _ S1 Hi) as (c1 & A & B & E & T & RT & _).
    destruct (IH _ _ _ _ _ R1 A) as (c2 & A2 & E2 & T2 & RT2 & B2).
    exists c2. split; [exact A2|]. cbn [combine]. split; [|split; [|split]].
    + rewrite E2, E. split.
      * intros [[Q|[Q1 Q2]]|(o' & b' & I1 & I2 & I3)]; [auto|right; exists o, b1; split; [left; reflexivity|auto]|].
        right. exists o', b'. split; [right; exact I1|auto].
      * intros [Q|(o' & b' & [I1|I1] & I2 & I3)]; [auto| |].
        -- injection I1 as <- <-. left. right. auto.
        -- right. exists o', b'. auto.
    + rewrite T2, T, (registered_cons i (o, b1) (combine ops bs1)), <- app_assoc. reflexivity.
    + intro Q. rewrite RT2.
      * apply RT. assert (DEC : acts_on o = Some i \/ acts_on o <> Some i).
        { destruct (acts_on o) as [j|]; [|right; discriminate]. destruct (Nat.eq_dec j i) as [->|N]; [left; reflexivity|].
          right. intro Q'. injection Q' as ->. exact (N eq_refl). }
        destruct DEC as [D|D]; [right; exact (Q o b1 (or_introl eq_refl) D)|left; exact D].
      * intros o' b' I1 I2. exact (Q o' b' (or_intror I1) I2).
    + intro Q. rewrite B2; [apply B; apply Q; left; reflexivity|]. intros o' I1. apply Q. right. exact I1.
Qed.

(** The root after a history is that of the last read that returned. *)
Lemma run_root : forall d pre o post w w' bs i c,
  c_run d w (pre ++ o :: post) = Ok (Some (w', bs)) -> nth_error (w_objs w) i = Some c ->
  acts_on o = Some i ->
  (exists b, nth_error bs (length pre) = Some b /\ returned b = true) ->
  (forall o' b', In (o', b') (combine post (skipn (S (length pre)) bs)) -> acts_on o' = Some i -> returned b' = false) ->
  exists w1 bs1 c1 c' text log, c_run d w pre = Ok (Some (w1, bs1)) /\ nth_error (w_objs w1) i = Some c1 /\
    nth_error (w_objs w') i = Some c' /\ reads_text w1 o text /\ nth_error bs (length pre) = Some (BRead log) /\
    from_string (ctypes c1) (w_fs w1) d text = FOk (croot c') (match log with [] => false | _ => true end).
Proof.
  intros d pre o post w w' bs i c H Hi On (b & Hb & Rb) Hpost.
  destruct (c_run_app _ _ _ _ _ _ H) as (w1 & ba & bb & R1 & R2 & -> & L).
  destruct (c_run_cons _ _ _ _ _ _ R2) as (w2 & b2 & bb2 & S1 & R3 & ->).
  rewrite <- L in Hb, Hpost. rewrite nth_error_app2, Nat.sub_diag in Hb by lia. cbn in Hb. injection Hb as ->.
  replace (S (length ba)) with (length (ba ++ [b])) in Hpost by (rewrite app_length; cbn; lia).
  replace (ba ++ b :: bb2) with ((ba ++ [b]) ++ bb2) in Hpost by (rewrite <- app_assoc; reflexivity).
  rewrite skipn_app, skipn_all, Nat.sub_diag in Hpost. cbn [app skipn] in Hpost.
  destruct (run_on _ _ _ _ _ _ _ R1 Hi) as (c1 & H1 & _).
  destruct (step_on _ _ _ _ _ _ _ S1 H1) as (c2 & H2 & _ & _ & _ & _ & RD).
  destruct (RD On Rb) as (text & RT & FS).
  destruct (run_on _ _ _ _ _ _ _ R3 H2) as (c3 & H3 & _ & _ & RK & _).
  specialize (RK Hpost).
  destruct b as [| | | | | | |log|]; try discriminate.
  exists w1, ba, c1, c3, text, log. split; [exact R1|]. split; [exact H1|]. split; [exact H3|]. split; [exact RT|].
  split; [rewrite <- L, nth_error_app2, Nat.sub_diag by lia; reflexivity|]. rewrite RK. exact FS.
Qed.

(** A configuration file is opened at most once. *)
Lemma no_nameless_step : forall d w o w' b ops, c_step d w o = Ok (Some (w', b)) -> no_nameless (w_fs w) (o :: ops) ->
  no_nameless (w_fs w') ops.
Proof.
  intros d w o w' b ops H [N1 N2]. split; [|intros t Q; exact (N2 t (or_intror Q))].
  unfold c_step, the_obj in H.
  destruct o as [|j|j name|j name|j text src|j|j|name text|text]; 
    try (destruct (nth_error (w_objs w) j) as [x|]; cbn [obind] in H; [|discriminate]).
  - injection H as <- <-. exact N1.
  - injection H as <- <-. exact N1.
  - destruct (register_block_type (ctypes x) name) as [[ty n]| |]; injection H as <- <-; exact N1.
  - destruct (conf_file (w_fs w) d x name) as [[[y b']|]| |]; cbn [obind] in H; try discriminate. injection H as <- <-. exact N1.
  - destruct (conf_string (w_fs w) d x src text) as [[[y b']|]| |]; cbn [obind] in H; try discriminate. injection H as <- <-. exact N1.
  - destruct (conf_stdin (w_fs w) d x (w_cin w)) as [[[[y b'] s']|]| |]; cbn [obind] in H; try discriminate. injection H as <- <-. exact N1.
  - injection H as <- <-. exact N1.
  - injection H as <- <-. cbn [w_fs]. destruct (str_eqb [] name) eqn:E.
    + destruct name as [|a name]; [|discriminate]. destruct text as [t|]; [|reflexivity].
      destruct (N2 t (or_introl eq_refl)).
    + exact N1.
  - injection H as <- <-. exact N1.
Qed.
Lemma step_keeps_file : forall d w o w' b i c, c_step d w o = Ok (Some (w', b)) -> nth_error (w_objs w) i = Some c ->
  w_fs w [] = None -> cfile c <> [] -> exists c', nth_error (w_objs w') i = Some c' /\ cfile c' <> [].
Proof.
  intros d w o w' b i c H Hi N F. destruct (c_step_inv _ _ _ _ _ _ _ H Hi) as (c' & A & B & C).
  exists c'. split; [exact A|].
  assert (DEC : acts_on o = Some i \/ acts_on o <> Some i).
  { destruct (acts_on o) as [j|]; [|right; discriminate]. destruct (Nat.eq_dec j i) as [->|M]; [left; reflexivity|].
    right. intro Q. injection Q as ->. exact (M eq_refl). }
  destruct DEC as [On|Off]; [|rewrite (B Off); exact F]. specialize (C On).
  destruct o as [|j|j name|j name|j text src|j|j|name text|text]; try discriminate.
  - destruct C as [(-> & _)|(_ & -> & _)]; exact F.
  - destruct (conf_file_after _ _ _ _ _ _ C) as [(_ & -> & _)|[(_ & _ & -> & _)|(Q & _)]]; [exact F|exact F|destruct (F Q)].
  - exact (conf_string_keeps_file _ _ _ _ _ _ _ N F C).
  - destruct C as (_ & _ & E). exact (conf_string_keeps_file _ _ _ _ _ _ _ N F E).
  - destruct C as [-> _]. exact F.
Qed.
Lemma run_keeps_file : forall d ops w w' bs i c, c_run d w ops = Ok (Some (w', bs)) -> nth_error (w_objs w) i = Some c ->
  no_nameless (w_fs w) ops -> cfile c <> [] -> exists c', nth_error (w_objs w') i = Some c' /\ cfile c' <> [].
Proof.
  intros d. induction ops as [|o ops IH]; intros w w' bs i c H Hi N F.
  - cbn in H. injection H as <- <-. exists c. auto.
  - destruct (c_run_cons _ _ _ _ _ _ H) as (w1 & b1 & bs1 & S1 & R1 & ->).
    destruct (step_keeps_file _ _ _ _ _ _ _ S1 Hi (proj1 N) F) as (c1 & H1 & F1).
    exact (IH _ _ _ _ _ R1 H1 (no_nameless_step _ _ _ _ _ _ S1 N) F1).
Qed.
Lemma no_nameless_run : forall d ops w w' bs rest, c_run d w ops = Ok (Some (w', bs)) -> no_nameless (w_fs w) (ops ++ rest) ->
  no_nameless (w_fs w') rest.
Proof.
  intros d. induction ops as [|o ops IH]; intros w w' bs rest H N.
  - cbn in H. injection H as <- <-. exact N.
  - destruct (c_run_cons _ _ _ _ _ _ H) as (w1 & b1 & bs1 & S1 & R1 & ->).
    exact (IH _ _ _ _ R1 (no_nameless_step _ _ _ _ _ _ S1 N)).
Qed.
Lemma file_step : forall d w i name w' b, c_step d w (CFromFile i name) = Ok (Some (w', b)) ->
  exists c, nth_error (w_objs w) i = Some c /\
    (b = BOpened <-> cfile c <> []) /\
    (b = BNoFile <-> cfile c = [] /\ w_fs w name = None) /\
    (got_open b = false -> w' = w \/ exists c', c' = c /\ w' = put_obj w i c').
Proof.
  intros d w i name w' b H. unfold c_step, the_obj in H.
  destruct (nth_error (w_objs w) i) as [c|] eqn:Hc; cbn [obind] in H; [|discriminate].
  exists c. split; [reflexivity|].
  destruct (conf_file (w_fs w) d c name) as [[[y b']|]| |] eqn:E; cbn [obind] in H; try discriminate.
  injection H as <- <-.
  destruct (conf_file_after _ _ _ _ _ _ E) as [(F & -> & ->)|[(F & G & -> & ->)|(F & text & G & E2)]].
  - split; [split; auto|]. split; [split; [discriminate|intros [Q _]; destruct (F Q)]|]. intros _. right. exists c. auto.
  - split; [split; [discriminate|intro Q; destruct (Q F)]|]. split; [split; auto|]. intros _. right. exists c. auto.
  - destruct (conf_string_after _ _ _ _ _ _ _ E2) as [(_ & _ & _ & _ & GO) _].
    split; [split; [intros ->; discriminate|intro Q; destruct (Q F)]|].
    split; [split; [intros ->; discriminate|intros [_ Q]; rewrite G in Q; discriminate]|].
    rewrite GO. discriminate.
Qed.
Lemma upd_nth_id : forall A (l : list A) i x, nth_error l i = Some x -> upd_nth i (fun _ => x) l = l.
Proof.
  induction l as [|a l IH]; intros [|i] x H; try discriminate.
  - cbn in H. injection H as ->. reflexivity.
  - cbn in H |- *. rewrite (IH _ _ H). reflexivity.
Qed.
Lemma refused_same : forall d w o w' b, c_step d w o = Ok (Some (w', b)) ->
  b = BOpened \/ b = BNoFile \/ b = BDuplicate -> w' = w.
Proof.
  intros d w o w' b H Q.
  destruct o as [|j|j name|j name|j text src|j|j|name text|text].
  4:{ destruct (file_step _ _ _ _ _ _ H) as (c & Hc & B1 & B2 & K).
      destruct K as [K|(c' & -> & ->)]; [destruct Q as [ -> | [ -> | Q ] ]; try reflexivity|exact K|].
      - subst b. unfold c_step in H. destruct (the_obj w j) as [x| |]; cbn [obind] in H; try discriminate.
        destruct (conf_file (w_fs w) d x name) as [[[y b']|]| |] eqn:E; cbn [obind] in H; try discriminate. injection H as _ ->.
        destruct (conf_file_after _ _ _ _ _ _ E) as [(_ & _ & Q)|[(_ & _ & _ & Q)|(_ & t & _ & E2)]]; try discriminate.
        destruct (conf_string_after _ _ _ _ _ _ _ E2) as (_ & _ & []).
      - unfold put_obj. rewrite (upd_nth_id _ _ _ _ Hc). destruct w; reflexivity. }
  all: unfold c_step, the_obj in H.
  all: try (destruct (nth_error (w_objs w) j) as [x|] eqn:Hx; cbn [obind] in H; [|discriminate]).
  - injection H as <- <-. destruct Q as [Q|[Q|Q]]; discriminate.
  - injection H as <- <-. destruct Q as [Q|[Q|Q]]; discriminate.
  - destruct (register_block_type (ctypes x) name) as [[ty n]| |]; injection H as <- <-; [destruct Q as [Q|[Q|Q]]; discriminate|reflexivity|reflexivity].
  - destruct (conf_string (w_fs w) d x src text) as [[[y b']|]| |] eqn:E; cbn [obind] in H; try discriminate. injection H as <- <-.
    destruct (conf_string_after _ _ _ _ _ _ _ E) as (_ & _ & K). destruct Q as [ -> | [ -> | -> ] ]; destruct K.
  - destruct (w_cin w) as [t [|]] eqn:EC; [rewrite conf_stdin_eof in H; discriminate|]. rewrite conf_stdin_open in H.
    destruct (conf_string (w_fs w) d x (str_of "stdin") (upto_nul t)) as [[[y b']|]| |] eqn:E; cbn [obind] in H; try discriminate. injection H as <- <-.
    destruct (conf_string_after _ _ _ _ _ _ _ E) as (_ & _ & K). destruct Q as [ -> | [ -> | -> ] ]; destruct K.
  - injection H as <- <-. destruct Q as [Q|[Q|Q]]; discriminate.
  - injection H as <- <-. destruct Q as [Q|[Q|Q]]; discriminate.
  - injection H as <- <-. destruct Q as [Q|[Q|Q]]; discriminate.
Qed.
Lemma open_once : forall d pre i n1 mid n2 post w w' bs,
  c_run d w (pre ++ CFromFile i n1 :: mid ++ CFromFile i n2 :: post) = Ok (Some (w', bs)) ->
  no_nameless (w_fs w) (pre ++ CFromFile i n1 :: mid ++ CFromFile i n2 :: post) ->
  n1 <> [] ->
  (exists b, nth_error bs (length pre) = Some b /\ got_open b = true) ->
  nth_error bs (length pre + S (length mid)) = Some BOpened.
Proof.
  intros d pre i n1 mid n2 post w w' bs H N Hn (b & Hb & Ob).
  destruct (c_run_app _ _ _ _ _ _ H) as (w1 & ba & bb & R1 & R2 & -> & L1).
  pose proof (no_nameless_run _ _ _ _ _ _ R1 N) as N1.
  destruct (c_run_cons _ _ _ _ _ _ R2) as (w2 & b2 & bb2 & S1 & R3 & ->).
  pose proof (no_nameless_step _ _ _ _ _ _ S1 N1) as N2.
  rewrite <- L1 in Hb. rewrite nth_error_app2, Nat.sub_diag in Hb by lia. cbn in Hb. injection Hb as ->.
  destruct (c_run_app _ _ _ _ _ _ R3) as (w3 & bm & bp & R4 & R5 & -> & L2).
  destruct (c_run_cons _ _ _ _ _ _ R5) as (w4 & b4 & bb4 & S2 & R6 & ->).
  assert (F : exists c2, nth_error (w_objs w2) i = Some c2 /\ cfile c2 <> []).
  { destruct (file_step _ _ _ _ _ _ S1) as (c & Hc & _).
    destruct (c_step_inv _ _ _ _ _ _ _ S1 Hc) as (c2 & A & _ & C). specialize (C eq_refl). cbv beta iota in C.
    exists c2. split; [exact A|].
    destruct (conf_file_after _ _ _ _ _ _ C) as [(_ & _ & ->)|[(_ & _ & _ & ->)|(_ & text & F & E)]]; try discriminate.
    exact (conf_string_keeps_file _ _ (mkConf n1 (croot c) (ctypes c) (cerr c)) _ _ _ _ (proj1 N1) Hn E). }
  destruct F as (c2 & H2 & F2).
  destruct (run_keeps_file _ _ _ _ _ _ _ R4 H2) as (c3 & H3 & F3);
    [split; [exact (proj1 N2)|intros t Q; apply (proj2 N2 t); apply in_or_app; left; exact Q]|exact F2|].
  destruct (file_step _ _ _ _ _ _ S2) as (c & Hc & OP & _). rewrite Hc in H3. injection H3 as ->.
  apply OP in F3. subst b4.
  replace (ba ++ b :: bm ++ BOpened :: bb4) with ((ba ++ b :: bm) ++ BOpened :: bb4) by (rewrite <- app_assoc; reflexivity).
  rewrite <- L1, <- L2.
  replace (length ba + S (length bm)) with (length (ba ++ b :: bm)) by (rewrite app_length; cbn; lia).
  rewrite nth_error_app2, Nat.sub_diag by lia. reflexivity.
Qed.

(** Standard input can be read once. *)
Lemma step_eof : forall d w o w' b, c_step d w o = Ok (Some (w', b)) -> cin_eof (w_cin w) = true ->
  cin_eof (w_cin w') = true /\ forall i, o <> CFromStdin i.
Proof.
  intros d w o w' b H E. unfold c_step, the_obj in H.
  destruct o as [|j|j name|j name|j text src|j|j|name text|text];
    try (destruct (nth_error (w_objs w) j) as [x|]; cbn [obind] in H; [|discriminate]).
  - injection H as <- <-. split; [exact E|discriminate].
  - injection H as <- <-. split; [exact E|discriminate].
  - destruct (register_block_type (ctypes x) name) as [[ty n]| |]; injection H as <- <-; (split; [exact E|discriminate]).
  - destruct (conf_file (w_fs w) d x name) as [[[y b']|]| |]; cbn [obind] in H; try discriminate. injection H as <- <-. split; [exact E|discriminate].
  - destruct (conf_string (w_fs w) d x src text) as [[[y b']|]| |]; cbn [obind] in H; try discriminate. injection H as <- <-. split; [exact E|discriminate].
  - destruct (w_cin w) as [t e]. cbn in E. subst e. rewrite conf_stdin_eof in H. discriminate.
  - injection H as <- <-. split; [exact E|discriminate].
  - injection H as <- <-. split; [exact E|discriminate].
  - injection H as <- <-. cbn. rewrite E. split; [exact E|discriminate].
Qed.
Lemma run_eof : forall d ops w w' bs, c_run d w ops = Ok (Some (w', bs)) -> cin_eof (w_cin w) = true ->
  forall i, ~ In (CFromStdin i) ops.
Proof.
  intros d. induction ops as [|o ops IH]; intros w w' bs H E i; [intros []|].
  destruct (c_run_cons _ _ _ _ _ _ H) as (w1 & b1 & bs1 & S1 & R1 & ->).
  destruct (step_eof _ _ _ _ _ S1 E) as [E1 N]. intros [Q|Q]; [exact (N _ Q)|exact (IH _ _ _ R1 E1 i Q)].
Qed.
Lemma stdin_once : forall d pre i mid j post w r,
  c_run d w (pre ++ CFromStdin i :: mid ++ CFromStdin j :: post) <> Ok (Some r).
Proof.
  intros d pre i mid j post w [w' bs] H.
  destruct (c_run_app _ _ _ _ _ _ H) as (w1 & ba & bb & R1 & R2 & -> & L1).
  destruct (c_run_cons _ _ _ _ _ _ R2) as (w2 & b2 & bb2 & S1 & R3 & ->).
  assert (E : cin_eof (w_cin w2) = true).
  { unfold c_step, the_obj in S1. destruct (nth_error (w_objs w1) i) as [x|]; cbn [obind] in S1; [|discriminate].
    destruct (w_cin w1) as [t [|]]; [rewrite conf_stdin_eof in S1; discriminate|]. rewrite conf_stdin_open in S1.
    destruct (conf_string (w_fs w1) d x (str_of "stdin") (upto_nul t)) as [[[y b']|]| |]; cbn [obind] in S1; try discriminate.
    injection S1 as <- <-. reflexivity. }
  apply (run_eof _ _ _ _ _ R3 E j). apply in_or_app. right. left. reflexivity.
Qed.
Lemma stdin_step : forall d w i text, cin_eof (w_cin w) = false -> cut_at_nul (cin_rest (w_cin w)) text ->
  c_step d w (CFromStdin i) =
  obind (c_step d w (CFromString i text (str_of "stdin"))) (fun r =>
    Ok (match r with None => None | Some (w', b) => Some (mkCW (w_objs w') (w_fs w') (mkCin [] true), b) end)).
Proof.
  intros d w i text E C. apply upto_nul_cut in C. subst text. unfold c_step, the_obj.
  destruct (nth_error (w_objs w) i) as [x|]; cbn [obind]; [|reflexivity].
  destruct (w_cin w) as [t e]. cbn in E. subst e. rewrite conf_stdin_open. cbn [cin_rest].
  destruct (conf_string (w_fs w) d x (str_of "stdin") (upto_nul t)) as [[[y b']|]| |]; reflexivity.
Qed.
Lemma stdin_eof_UB : forall d w i, i < length (w_objs w) -> cin_eof (w_cin w) = true -> c_step d w (CFromStdin i) = UB.
Proof.
  intros d w i L E. unfold c_step, the_obj. destruct (nth_error (w_objs w) i) as [x|] eqn:Hx; [|apply nth_error_None in Hx; lia].
  cbn [obind]. destruct (w_cin w) as [t e]. cbn in E. subst e. rewrite conf_stdin_eof. reflexivity.
Qed.

(** ** Copies *)
Lemma copy_same_untouched : forall b, same_untouched b (copy_block b).
Proof.
  fix IH 1. intros [t n s sets subs]. cbn [copy_block]. constructor.
  - unfold get_secondary_type. cbn. destruct s as [|c s]; cbn; [destruct n; reflexivity|reflexivity].
  - induction sets as [|x sets IS]; [constructor|]. constructor; [auto|exact IS].
  - induction subs as [|x subs IS]; [constructor|]. constructor; [apply IH|exact IS].
Qed.
Lemma copy_step : forall d w i c, nth_error (w_objs w) i = Some c ->
  exists w' c', c_step d w (CCopy i) = Ok (Some (w', BMade (length (w_objs w)))) /\
    nth_error (w_objs w') (length (w_objs w)) = Some c' /\
    (forall j x, nth_error (w_objs w) j = Some x -> nth_error (w_objs w') j = Some x) /\
    cfile c' = cfile c /\ ctypes c' = ctypes c /\ cerr c' = cerr c /\ same_untouched (croot c) (croot c').
Proof.
  intros d w i c Hi. unfold c_step, the_obj. rewrite Hi. cbn [obind]. eexists _, (copy_conf c).
  split; [reflexivity|]. cbn [w_objs].
  split; [rewrite nth_error_app2, Nat.sub_diag by lia; reflexivity|].
  split; [intros j x Hj; rewrite nth_error_app1; [exact Hj|apply nth_error_Some; rewrite Hj; discriminate]|].
  split; [reflexivity|]. split; [reflexivity|]. split; [reflexivity|]. apply copy_same_untouched.
Qed.

(** ** Queries of blocks *)
Lemma subs_of_type_filter : forall subs ty, subs_of_type subs ty = filter (fun b => Nat.eqb (cb_type b) ty) subs.
Proof.
  induction subs as [|b subs IH]; intro ty; [reflexivity|]. cbn. rewrite IH. reflexivity.
Qed.
Lemma has_subs_of_type_spec : forall subs ty, has_subs_of_type subs ty = true <-> exists b, In b subs /\ cb_type b = ty.
Proof.
  induction subs as [|b subs IH]; intro ty; [split; [discriminate|intros (b & [] & _)]|].
  cbn [has_subs_of_type]. destruct (Nat.eqb_spec (cb_type b) ty) as [E|E].
  - split; [intros _; exists b; split; [left; reflexivity|exact E]|reflexivity].
  - rewrite IH. split; [intros (x & A & B); exists x; split; [right; exact A|exact B]|].
    intros (x & [<-|A] & B); [destruct (E B)|exists x; auto].
Qed.
