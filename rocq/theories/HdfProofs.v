(** Lemmas about HDF5 and MAT files on disk. *)
From Verif Require Import Base SettingsModel SdtModel SdtProofs SessionModel SFileModel SFileProofs TypedModel HdfModel HdfSpec.
From Coq Require Import ZArith QArith Lia.
Local Open Scope Z_scope.

Lemma kept_refl : forall x, kept x x.
Proof. intro x. repeat split; auto. Qed.
Lemma kept_trans : forall x y z, kept x y -> kept y z -> kept x z.
Proof.
  intros x y z (A1 & A2 & A3 & A4) (B1 & B2 & B3 & B4). split; [congruence|]. split; [auto|]. split; auto.
Qed.
Lemma find_attr_app : forall d n a l m, find_attr d n l = Some a -> find_attr d n (l ++ m) = Some a.
Proof.
  intros d n a l m. induction l as [|[[d' n'] b] r IH]; cbn [find_attr app]; [discriminate|].
  destruct (str_eqb d d' && str_eqb n n')%bool; [auto|exact IH].
Qed.
Lemma find_attr_new : forall d n a l, find_attr d n l = None -> find_attr d n (l ++ [(d, n, a)]) = Some a.
Proof.
  intros d n a l. induction l as [|[[d' n'] b] r IH]; cbn [find_attr app].
  - intros _. rewrite (proj2 (str_eqb_eq d d)), (proj2 (str_eqb_eq n n)) by reflexivity. reflexivity.
  - destruct (str_eqb d d' && str_eqb n n')%bool; [discriminate|exact IH].
Qed.
Lemma find_attr_other : forall d n d0 n0 a l, (d, n) <> (d0, n0) -> find_attr d n (l ++ [(d0, n0, a)]) = find_attr d n l.
Proof.
  intros d n d0 n0 a l H. induction l as [|[[d' n'] b] r IH]; cbn [find_attr app].
  - destruct (str_eqb_spec d d0) as [E | E]; [|reflexivity]. destruct (str_eqb_spec n n0) as [E2 | E2]; [|reflexivity].
    exfalso. apply H. congruence.
  - destruct (str_eqb d d' && str_eqb n n')%bool; [reflexivity|exact IH].
Qed.

Lemma h_create_ok : forall x n d y, h_create x n d = Ok y ->
  kept x y /\ find n (h_sets x) = None /\ find n (h_sets y) = Some d /\ (forall k, k <> n -> find k (h_sets y) = find k (h_sets x)) /\
  h_groups y = h_groups x /\ h_attrs y = h_attrs x /\ h_block y = h_block x.
Proof.
  intros x n d y H. unfold h_create in H.
  destruct (group_exists x n && negb (mem_str n (h_groups x)))%bool; [|discriminate].
  destruct (h5_create (h_sets x) n d) as [f| |] eqn:E; cbn [obind] in H; try discriminate.
  apply h5_create_ok in E. destruct E as (E1 & E2 & E3). injection H as H. subst y. cbn [h_sets h_groups h_attrs h_block].
  split; [|auto 10]. split; [reflexivity|]. split; [auto|]. split; [|auto]. cbn [h_sets]. intros k e F.
  rewrite E3; [exact F|]. intro C. subst k. congruence.
Qed.
Lemma h_add_attr_ok : forall x d n a y, h_add_attr x d n a = Ok y ->
  kept x y /\ h5_has (h_sets x) d = true /\ find_attr d n (h_attrs x) = None /\ find_attr d n (h_attrs y) = Some a /\
  (forall d' n', (d', n') <> (d, n) -> find_attr d' n' (h_attrs y) = find_attr d' n' (h_attrs x)) /\
  h_groups y = h_groups x /\ h_sets y = h_sets x /\ h_block y = h_block x.
Proof.
  intros x d n a y H. unfold h_add_attr in H. destruct (h5_has (h_sets x) d) eqn:E; [|discriminate].
  destruct (find_attr d n (h_attrs x)) eqn:F; [discriminate|]. injection H as H. subst y. cbn [h_sets h_groups h_attrs h_block].
  split. { split; [reflexivity|]. split; [auto|]. split; [auto|]. cbn [h_attrs]. intros d' n' b G. apply find_attr_app. exact G. }
  split; [reflexivity|]. split; [reflexivity|]. split; [apply find_attr_new; exact F|]. split; [|auto].
  intros d' n' N. apply find_attr_other. exact N.
Qed.
Lemma h_create_group_ok : forall x n y, h_create_group x n = Ok y -> kept x y /\ h_groups y = h_groups x ++ [n] /\
  h_sets y = h_sets x /\ h_attrs y = h_attrs x /\ h_block y = h_block x.
Proof.
  intros x n y H. unfold h_create_group in H.
  destruct (group_exists x n && negb (mem_str n (h_groups x)) && negb (h5_has (h_sets x) n))%bool; [|discriminate].
  injection H as H. subst y. cbn [h_sets h_groups h_attrs h_block]. split; [|auto]. split; [reflexivity|]. split; [|split; auto].
  intros g G. cbn [h_groups]. apply in_or_app. left. exact G.
Qed.
Lemma mat_text_ok : forall x n v y, mat_text x n v = Ok y ->
  kept x y /\ find n (h_sets x) = None /\
  find n (h_sets y) = Some (Dataset HU16 [Z.of_nat (length v); 1] (map (fun c => inject_Z (ushort_of_char c)) v)) /\
  find_attr n class_name (h_attrs y) = Some (AText (str_of "char")).
Proof.
  intros x n v y H. unfold mat_text in H.
  destruct (h_create x n _) as [x1| |] eqn:E1; cbn [obind] in H; try discriminate.
  destruct (h_add_attr x1 n class_name _) as [x2| |] eqn:E2; cbn [obind] in H; try discriminate.
  apply h_create_ok in E1. apply h_add_attr_ok in E2. apply h_add_attr_ok in H.
  destruct E1 as (K1 & N & F & _). destruct E2 as (K2 & _ & _ & A2 & _). destruct H as (K3 & _).
  split; [exact (kept_trans _ _ _ K1 (kept_trans _ _ _ K2 K3))|]. split; [exact N|]. split.
  - apply K3, K2. exact F.
  - apply K3. exact A2.
Qed.
Lemma hdf_write_kept : forall x w y, hdf_write x w = Ok y -> kept x y.
Proof.
  intros x w y H. destruct w; cbn [hdf_write] in H;
    try (apply h_create_ok in H; apply H); try (apply h_add_attr_ok in H; apply H).
  - destruct rows; [discriminate|]. apply h_create_ok in H. apply H.
  - apply h_create_group_ok in H. apply H.
Qed.
Ltac case_write :=
  repeat match goal with
  | H : (match ?e with Ok _ => _ | Throw => _ | UB => _ end) = (_, _) |- _ => let E := fresh "E" in destruct e eqn:E
  end.
Lemma kind_write_kept : forall k x w r y, kind_write k x w = (r, y) -> kept x y.
Proof.
  intros k x w r y H. destruct k; cbn [kind_write] in H.
  - destruct (hdf_write x w) as [z| |] eqn:E; injection H as H1 H2; subst; try apply kept_refl. exact (hdf_write_kept _ _ _ E).
  - destruct w as [t n l|t n nc rows|t n dims data|n v|n|d n v|d n v]; cbn [mat_write] in H; cbv zeta beta in H.
    + destruct (hdf_write x _) as [z| |] eqn:E; injection H as H1 H2; subst; try apply kept_refl. exact (hdf_write_kept _ _ _ E).
    + destruct (hdf_write x _) as [z| |] eqn:E; [|injection H as H1 H2; subst; apply kept_refl..].
      apply hdf_write_kept in E.
      destruct (h_add_attr z n class_name _) as [u| |] eqn:E2; injection H as H1 H2; subst; try exact E.
      apply h_add_attr_ok in E2. exact (kept_trans _ _ _ E (proj1 E2)).
    + assert (G : forall g, (match hdf_write x (WMulti t n dims data) with
        | Ok y0 => match g y0 with Ok z => (Ok tt, z) | Throw => (Throw, y0) | UB => (UB, y0) end
        | Throw => (Throw, x) | UB => (UB, x) end) = (r, y) -> (forall a b, g a = Ok b -> kept a b) -> kept x y).
      { intros g G K. destruct (hdf_write x _) as [z| |] eqn:E; [|injection G as H1 H2; subst; apply kept_refl..].
        apply hdf_write_kept in E. destruct (g z) as [u| |] eqn:E2; injection G as H1 H2; subst; try exact E.
        exact (kept_trans _ _ _ E (K _ _ E2)). }
      destruct t;
        (eapply G; [exact H|]; intros a b Q; cbv beta in Q;
         first [apply h_add_attr_ok in Q; apply Q | apply mat_text_ok in Q; apply Q]).
    + destruct (mat_text x n v) as [z| |] eqn:E; injection H as H1 H2; subst; try apply kept_refl. apply mat_text_ok in E; apply E.
    + destruct (hdf_write x _) as [z| |] eqn:E; injection H as H1 H2; subst; try apply kept_refl. exact (hdf_write_kept _ _ _ E).
    + destruct (h_create x _ _) as [z| |] eqn:E; injection H as H1 H2; subst; try apply kept_refl. apply h_create_ok in E; apply E.
    + destruct (mat_text x _ v) as [z| |] eqn:E; injection H as H1 H2; subst; try apply kept_refl. apply mat_text_ok in E; apply E.
Qed.

(** * Calls *)
Lemma put_file_same : forall fs f x, put_file fs f x f = x.
Proof. intros. unfold put_file. rewrite (proj2 (str_eqb_eq f f)); reflexivity. Qed.
Lemma put_file_other : forall fs f x g, g <> f -> put_file fs f x g = fs g.
Proof. intros fs f x g H. unfold put_file. destruct (str_eqb_spec g f); [contradiction|reflexivity]. Qed.
Lemma put_obj_same : forall ob i o, put_obj ob i o i = o.
Proof. intros. unfold put_obj. rewrite Nat.eqb_refl. reflexivity. Qed.
Lemma put_obj_other : forall ob i o j, j <> i -> put_obj ob i o j = ob j.
Proof. intros ob i o j H. unfold put_obj. destruct (Nat.eqb_spec j i); [contradiction|reflexivity]. Qed.

Lemma hdf_open_cases : forall fs o f m l t r o' fs', hdf_open fs o f m l t = (r, o', fs') ->
  (r = Ok tt /\ o' = HObj (o_kind o) (PFile f (match m with MRead => false | _ => true end)) /\
     (m <> MWrite -> fs' = fs /\ exists x, fs f = FHdf x) /\
     (m = MWrite -> exists b, fs' = put_file fs f (FHdf (empty_file b)) /\
        match o_kind o with KHdf => b = [] | KMat => user_block t = Ok b end)) \/
  (r <> Ok tt /\ o' = o /\ (fs' = fs \/ (m = MWrite /\ o_kind o = KMat /\ l = LLate /\
     fs' = put_file fs f (FHdf (empty_file (repeat cNUL 128)))))).
Proof.
  intros fs o f m l t r o' fs' H. unfold hdf_open in H.
  destruct m; cbv zeta in H.
  - destruct (fs f) as [| |x] eqn:E; [right; injection H as H1 H2 H3; subst; (split; [discriminate|auto])..|].
    destruct l; injection H as H1 H2 H3; subst; [left|right; (split; [discriminate|auto])..].
    split; [reflexivity|]. split; [reflexivity|]. split; [|discriminate]. intros _. split; [reflexivity|]. exists x. reflexivity.
  - destruct (fs f) as [| |x] eqn:E; [right; injection H as H1 H2 H3; subst; (split; [discriminate|auto])..|].
    destruct l; injection H as H1 H2 H3; subst; [left|right; (split; [discriminate|auto])..].
    split; [reflexivity|]. split; [reflexivity|]. split; [|discriminate]. intros _. split; [reflexivity|]. exists x. reflexivity.
  - destruct (o_kind o) eqn:K.
    + destruct l; injection H as H1 H2 H3; subst; [left|right; (split; [discriminate|auto])..].
      split; [reflexivity|]. split; [reflexivity|]. split; [congruence|]. intros _. exists []. auto.
    + destruct (user_block t) as [b| |] eqn:B;
        [|right; injection H as H1 H2 H3; subst; (split; [discriminate|auto])..].
      destruct l; injection H as H1 H2 H3; subst.
      * left. split; [reflexivity|]. split; [reflexivity|]. split; [congruence|]. intros _. exists b. auto.
      * right. split; [discriminate|auto].
      * right. split; [discriminate|]. split; [reflexivity|]. right. auto.
Qed.

Lemma step_kept : forall rn rs w c r w' f x, do_hcall rn rs w c = (r, w') -> ~ rewrites f c -> v_fs w f = FHdf x ->
  exists y, v_fs w' f = FHdf y /\ kept x y.
Proof.
  intros rn rs w c r w' f x H N F. destruct c as [i k|i g m l t|i|i|i a|i a]; cbn [do_hcall] in H.
  - injection H as H1 H2. subst w'. exists x. split; [exact F|apply kept_refl].
  - destruct (v_obj w i) as [o|]; [|injection H as H1 H2; subst w'; exists x; split; [exact F|apply kept_refl]].
    destruct (hdf_open (v_fs w) o g m l t) as [[ro o'] fs'] eqn:E. injection H as H1 H2. subst w'. cbn [v_fs].
    assert (S : m = MWrite -> f <> g). { intros M C. subst. apply N. exists i, l, t. reflexivity. }
    exists x. split; [|apply kept_refl]. apply hdf_open_cases in E.
    destruct E as [(_ & _ & E1 & E2) | (_ & _ & [E | (M & _ & _ & E)])].
    + destruct m; [rewrite (proj1 (E1 ltac:(discriminate))); exact F|rewrite (proj1 (E1 ltac:(discriminate))); exact F|].
      destruct (E2 eq_refl) as (b & Eb & _). rewrite Eb, put_file_other by (apply S; reflexivity). exact F.
    + rewrite E. exact F.
    + rewrite E, put_file_other by (apply S; exact M). exact F.
  - exists x. split; [|apply kept_refl].
    destruct (v_obj w i) as [[k [| |g b]]|]; injection H as H1 H2; subst w'; exact F.
  - exists x. split; [|apply kept_refl].
    destruct (v_obj w i) as [[k [| |g b]]|]; injection H as H1 H2; subst w'; exact F.
  - destruct (v_obj w i) as [[k [| |g b]]|] eqn:O;
      try (injection H as H1 H2; subst w'; exists x; split; [exact F|apply kept_refl]).
    destruct b; [|injection H as H1 H2; subst w'; exists x; split; [exact F|apply kept_refl]].
    destruct (v_fs w g) as [| |h] eqn:G; try (injection H as H1 H2; subst w'; exists x; split; [exact F|apply kept_refl]).
    destruct (kind_write k h a) as [q h'] eqn:W. injection H as H1 H2. subst w'. cbn [v_fs].
    destruct (str_eqb_spec f g) as [C | C].
    + subst g. rewrite put_file_same. exists h'. split; [reflexivity|].
      replace x with h by congruence. exact (kind_write_kept _ _ _ _ _ W).
    + rewrite put_file_other by exact C. exists x. split; [exact F|apply kept_refl].
  - exists x. split; [|apply kept_refl].
    destruct (v_obj w i) as [[k [| |g b]]|]; try (injection H as H1 H2; subst w'; exact F).
    destruct (v_fs w g); injection H as H1 H2; subst w'; exact F.
Qed.
Lemma run_kept : forall rn rs w tr w' f, run rn rs w tr w' -> Forall (fun e => ~ rewrites f (fst e)) tr ->
  forall x, v_fs w f = FHdf x -> exists y, v_fs w' f = FHdf y /\ kept x y.
Proof.
  intros rn rs w tr w' f H. induction H as [w|w c r w1 tr w2 D U R IH]; intros N x F.
  - exists x. split; [exact F|apply kept_refl].
  - inversion N as [|e l N1 N2 E]. destruct (step_kept _ _ _ _ _ _ _ _ D N1 F) as (y & Fy & K).
    destruct (IH N2 y Fy) as (z & Fz & K2). exists z. split; [exact Fz|exact (kept_trans _ _ _ K K2)].
Qed.

Lemma until_nul_id : forall s, ~ In cNUL s -> until_nul s = s.
Proof. intros s H. apply until_nul_spec. exact H. Qed.
Lemma char_text : forall v, map (fun q => char_of_code (Qnum q)) (text_data v) = v.
Proof.
  intro v. unfold text_data. rewrite map_map. cbn [Qnum inject_Z]. rewrite <- (map_id v) at 2. apply map_ext.
  intro c. apply char_code_inv.
Qed.
Lemma ushort_text : forall v, map (fun q => char_of_code (Qnum q)) (map (fun c => inject_Z (ushort_of_char c)) v) = v.
Proof. intro v. rewrite map_map. rewrite <- (map_id v) at 2. apply map_ext. apply ushort_char. Qed.

(** What a successful write stored. *)
Definition stored (k : kind) (w : hwrite) (x : hfile) : Prop :=
  match w with
  | WNums t n l => find n (h_sets x) = Some (Dataset t [Z.of_nat (length l)] l)
  | WRows t n nc rows => find n (h_sets x) = Some (Dataset t [Z.of_nat (length rows); Z.of_nat nc] (concat rows))
  | WMulti t n dims data => find n (h_sets x) = Some (Dataset t dims data)
  | WText n v => find n (h_sets x) = Some (match k with
        | KHdf => Dataset HString [Z.of_nat (length v)] (text_data v)
        | KMat => Dataset HU16 [Z.of_nat (length v); 1] (map (fun c => inject_Z (ushort_of_char c)) v) end)
  | WGroup n => In n (h_groups x)
  | WAttr d n v => match k with
        | KHdf => h5_has (h_sets x) d = true /\ find_attr d n (h_attrs x) = Some (ANum v)
        | KMat => find (attr_name d n) (h_sets x) = Some (Dataset HDouble [1] [v]) end
  | WAttrText d n v => match k with
        | KHdf => h5_has (h_sets x) d = true /\ find_attr d n (h_attrs x) = Some (AText v)
        | KMat => find (attr_name d n) (h_sets x) = Some (Dataset HU16 [Z.of_nat (length v); 1] (map (fun c => inject_Z (ushort_of_char c)) v)) end
  end.
Lemma has_kept : forall x y d, kept x y -> h5_has (h_sets x) d = true -> h5_has (h_sets y) d = true.
Proof.
  intros x y d (_ & _ & K & _) H. unfold h5_has in *. destruct (find d (h_sets x)) as [e|] eqn:E; [|discriminate].
  rewrite (K _ _ E). reflexivity.
Qed.
Lemma stored_kept : forall k w x y, kept x y -> stored k w x -> stored k w y.
Proof.
  intros k w x y K S. pose proof K as (_ & K2 & K3 & K4). destruct w; cbn [stored] in *; auto.
  - destruct k; [|auto]. destruct S as [S1 S2]. split; [exact (has_kept _ _ _ K S1)|auto].
  - destruct k; [|auto]. destruct S as [S1 S2]. split; [exact (has_kept _ _ _ K S1)|auto].
Qed.
Lemma hdf_write_stored : forall x w y, hdf_write x w = Ok y -> stored KHdf w y.
Proof.
  intros x w y H. destruct w; cbn [hdf_write] in H; cbn [stored].
  - apply h_create_ok in H. apply H.
  - destruct rows; [discriminate|]. apply h_create_ok in H. apply H.
  - apply h_create_ok in H. apply H.
  - apply h_create_ok in H. apply H.
  - apply h_create_group_ok in H. destruct H as (_ & G & _). rewrite G. apply in_or_app. right. left. reflexivity.
  - apply h_add_attr_ok in H. destruct H as (K & A & _ & B & _). split; [exact (has_kept _ _ _ K A)|exact B].
  - apply h_add_attr_ok in H. destruct H as (K & A & _ & B & _). split; [exact (has_kept _ _ _ K A)|exact B].
Qed.
Lemma kind_write_stored : forall k x w y, kind_write k x w = (Ok tt, y) -> stored k w y.
Proof.
  intros k x w y H. destruct k; cbn [kind_write] in H.
  - destruct (hdf_write x w) as [z| |] eqn:E; try discriminate. injection H as H. subst z. exact (hdf_write_stored _ _ _ E).
  - destruct w as [t n l|t n nc rows|t n dims data|n v|n|d n v|d n v]; cbn [mat_write] in H; cbv zeta beta in H.
    + destruct (hdf_write x _) as [z| |] eqn:E; try discriminate. injection H as H. subst z. exact (hdf_write_stored _ _ _ E).
    + destruct (hdf_write x _) as [z| |] eqn:E; try discriminate.
      destruct (h_add_attr z n class_name _) as [u| |] eqn:E2; try discriminate. injection H as H. subst u.
      apply hdf_write_stored in E. apply h_add_attr_ok in E2. exact (stored_kept KHdf (WRows t n nc rows) _ _ (proj1 E2) E).
    + assert (G : forall g, (match hdf_write x (WMulti t n dims data) with
        | Ok y0 => match g y0 with Ok z => (Ok tt, z) | Throw => (Throw, y0) | UB => (UB, y0) end
        | Throw => (Throw, x) | UB => (UB, x) end) = (Ok tt, y) -> (forall a b, g a = Ok b -> kept a b) -> stored KMat (WMulti t n dims data) y).
      { intros g G K. destruct (hdf_write x _) as [z| |] eqn:E; try discriminate.
        apply hdf_write_stored in E. destruct (g z) as [u| |] eqn:E2; try discriminate. injection G as G. subst u.
        exact (stored_kept KHdf (WMulti t n dims data) _ _ (K _ _ E2) E). }
      destruct t;
        (eapply G; [exact H|]; intros a b Q; cbv beta in Q;
         first [apply h_add_attr_ok in Q; apply Q | apply mat_text_ok in Q; apply Q]).
    + destruct (mat_text x n v) as [z| |] eqn:E; try discriminate. injection H as H. subst z. apply mat_text_ok in E; apply E.
    + destruct (hdf_write x _) as [z| |] eqn:E; try discriminate. injection H as H. subst z. exact (hdf_write_stored _ _ _ E).
    + destruct (h_create x _ _) as [z| |] eqn:E; try discriminate. injection H as H. subst z. apply h_create_ok in E; apply E.
    + destruct (mat_text x _ v) as [z| |] eqn:E; try discriminate. injection H as H. subst z. apply mat_text_ok in E; apply E.
Qed.
Lemma mat_string_stored : forall f n v,
  find n f = Some (Dataset HU16 [Z.of_nat (length v); 1] (map (fun c => inject_Z (ushort_of_char c)) v)) -> ~ In cNUL v ->
  mat_get_string f n = Ok v.
Proof.
  intros f n v F N. unfold mat_get_string. rewrite F. cbn [d_dims d_type d_data]. rewrite map_length, Z.eqb_refl, ushort_text.
  rewrite until_nul_id by exact N. reflexivity.
Qed.
Lemma stored_reads : forall rn rs k k' w x r v, stored k w x -> reads_back k k' w r v -> kind_read rn rs k' x r = Ok v.
Proof.
  intros rn rs k k' w x r v S B. destruct B; cbn [stored] in S; cbn [kind_read]; unfold h5_get1d, h5_get2d, h5_get_multi, h5_has;
    try (rewrite S; cbn [d_dims d_type d_data numeric obind]; reflexivity).
  - rewrite S; cbn [d_dims d_type d_data numeric obind]. rewrite !Nat2Z.id. f_equal. f_equal. apply pieces_concat.
    rewrite Forall_forall in H. exact H.
  - rewrite S; cbn [d_dims d_type d_data numeric obind]. destruct (Nat.ltb_spec room (length dims)); [lia|]. reflexivity.
  - destruct k.
    + unfold hdf_text. rewrite S. cbn [d_type d_data obind]. rewrite char_text, until_nul_id by assumption. reflexivity.
    + rewrite (mat_string_stored _ _ _ S) by assumption. reflexivity.
  - unfold mat_get_string. rewrite S. cbn [d_dims d_type d_data]. rewrite char_text, until_nul_id by assumption. reflexivity.
  - destruct k.
    + destruct S as [S1 S2]. unfold hdf_attr. rewrite S1, S2. reflexivity.
    + unfold mat_get_attr, h5_get2d. rewrite S. reflexivity.
  - destruct k.
    + destruct S as [S1 S2]. unfold hdf_attr_text. rewrite S1, S2. cbn [obind]. rewrite until_nul_id by assumption. reflexivity.
    + rewrite (mat_string_stored _ _ _ S) by assumption. reflexivity.
Qed.
Lemma write_effect : forall rn rs w1 i a w2 k f, do_hcall rn rs w1 (HWr i a) = (Ok HDone, w2) ->
  v_obj w1 i = Some (HObj k (PFile f true)) -> exists x y, v_fs w1 f = FHdf x /\ kind_write k x a = (Ok tt, y) /\
    v_fs w2 f = FHdf y /\ same_but f w1 w2.
Proof.
  intros rn rs w1 i a w2 k f H O. cbn [do_hcall] in H. rewrite O in H.
  destruct (v_fs w1 f) as [| |x] eqn:F; try discriminate. destruct (kind_write k x a) as [q y] eqn:W.
  injection H as H1 H2. destruct q as [[]| |]; try discriminate. subst w2. exists x, y. cbn [v_fs v_obj].
  split; [reflexivity|]. split; [exact W|]. split; [apply put_file_same|]. split; [|reflexivity].
  intros g G. apply put_file_other. exact G.
Qed.
Lemma hdf_round_trip : forall rn rs w1 i a w2 tr w3 j k k' f m r v,
  v_obj w1 i = Some (HObj k (PFile f true)) -> do_hcall rn rs w1 (HWr i a) = (Ok HDone, w2) ->
  run rn rs w2 tr w3 -> Forall (fun e => ~ rewrites f (fst e)) tr -> v_obj w3 j = Some (HObj k' (PFile f m)) ->
  reads_back k k' a r v -> do_hcall rn rs w3 (HRd j r) = (Ok (HGot v), w3).
Proof.
  intros rn rs w1 i a w2 tr w3 j k k' f m r v O W R N O3 B.
  destruct (write_effect _ _ _ _ _ _ _ _ W O) as (x & y & Fx & K & Fy & _).
  destruct (run_kept _ _ _ _ _ _ R N y Fy) as (z & Fz & Kz). cbn [do_hcall]. rewrite O3, Fz.
  rewrite (stored_reads rn rs k k' a z r v (stored_kept _ _ _ _ Kz (kind_write_stored _ _ _ _ K)) B). reflexivity.
Qed.

(** * Files nobody writes *)
Lemma step_frame : forall rn rs w c r w' f, do_hcall rn rs w c = (r, w') -> ~ opens_to_write f c -> no_writer w f ->
  v_fs w' f = v_fs w f /\ no_writer w' f.
Proof.
  intros rn rs w c r w' f H N W. destruct c as [i k|i g m l t|i|i|i a|i a]; cbn [do_hcall] in H.
  - injection H as H1 H2. subst w'. split; [reflexivity|]. intros j k'. cbn [v_obj]. destruct (Nat.eq_dec j i) as [E | E].
    + subst j. rewrite put_obj_same. discriminate.
    + rewrite put_obj_other by exact E. apply W.
  - destruct (v_obj w i) as [o|] eqn:O; [|injection H as H1 H2; subst w'; split; [reflexivity|exact W]].
    destruct (hdf_open (v_fs w) o g m l t) as [[ro o'] fs'] eqn:E. injection H as H1 H2. subst w'. cbn [v_fs].
    assert (S : m <> MRead -> f <> g). { intros M C. subst. apply N. exists i, m, l, t. auto. }
    apply hdf_open_cases in E. split.
    + destruct E as [(_ & _ & E1 & E2) | (_ & _ & [E | (M & _ & _ & E)])].
      * destruct m; [rewrite (proj1 (E1 ltac:(discriminate))); reflexivity|rewrite (proj1 (E1 ltac:(discriminate))); reflexivity|].
        destruct (E2 eq_refl) as (b & Eb & _). rewrite Eb, put_file_other by (apply S; discriminate). reflexivity.
      * rewrite E. reflexivity.
      * rewrite E, put_file_other by (apply S; rewrite M; discriminate). reflexivity.
    + intros j k'. cbn [v_obj]. destruct (Nat.eq_dec j i) as [Ej | Ej].
      * subst j. rewrite put_obj_same. destruct E as [(_ & Eo & _) | (_ & Eo & _)].
        -- rewrite Eo. intro C. injection C as C1 C2 C3. destruct m; try discriminate; apply S; try discriminate; congruence.
        -- rewrite Eo, <- O. apply W.
      * rewrite put_obj_other by exact Ej. apply W.
  - destruct (v_obj w i) as [[k [| |g b]]|]; injection H as H1 H2; subst w'; split; try reflexivity; try exact W.
    intros j k'. cbn [v_obj]. destruct (Nat.eq_dec j i) as [E | E];
      [subst j; rewrite put_obj_same; discriminate|rewrite put_obj_other by exact E; apply W].
  - destruct (v_obj w i) as [[k [| |g b]]|]; injection H as H1 H2; subst w'; split; try reflexivity; try exact W;
    (intros j k'; cbn [v_obj]; destruct (Nat.eq_dec j i) as [E | E];
      [subst j; rewrite put_obj_same; discriminate|rewrite put_obj_other by exact E; apply W]).
  - destruct (v_obj w i) as [[k [| |g b]]|] eqn:O; try (injection H as H1 H2; subst w'; split; [reflexivity|exact W]).
    destruct b; [|injection H as H1 H2; subst w'; split; [reflexivity|exact W]].
    destruct (v_fs w g) as [| |h] eqn:G; try (injection H as H1 H2; subst w'; split; [reflexivity|exact W]).
    destruct (kind_write k h a) as [q h'] eqn:K. injection H as H1 H2. subst w'. cbn [v_fs].
    split; [|exact W]. apply put_file_other. intro C. subst g. exact (W i k O).
  - destruct (v_obj w i) as [[k [| |g b]]|]; try (injection H as H1 H2; subst w'; split; [reflexivity|exact W]).
    destruct (v_fs w g); injection H as H1 H2; subst w'; (split; [reflexivity|exact W]).
Qed.
Lemma run_frame : forall rn rs w tr w' f, run rn rs w tr w' -> Forall (fun e => ~ opens_to_write f (fst e)) tr ->
  no_writer w f -> v_fs w' f = v_fs w f.
Proof.
  intros rn rs w tr w' f H. induction H as [w|w c r w1 tr w2 D U R IH]; intros N W; [reflexivity|].
  inversion N as [|e l N1 N2 E]. destruct (step_frame _ _ _ _ _ _ _ D N1 W) as [F W1]. rewrite (IH N2 W1). exact F.
Qed.

(** * Writes that throw, reads, read-only files *)
Lemma same_refl : forall w, same_world w w.
Proof. intro w. split; reflexivity. Qed.
Lemma read_nothing : forall rn rs w i r o w', do_hcall rn rs w (HRd i r) = (o, w') -> w' = w.
Proof.
  intros rn rs w i r o w' H. cbn [do_hcall] in H. destruct (v_obj w i) as [[k [| |g b]]|]; try (injection H as H1 H2; auto).
  destruct (v_fs w g); injection H as H1 H2; auto.
Qed.
Lemma write_throw_hdf : forall rn rs w i a w' f, v_obj w i = Some (HObj KHdf (PFile f true)) ->
  do_hcall rn rs w (HWr i a) = (Throw, w') -> same_world w w'.
Proof.
  intros rn rs w i a w' f O H. cbn [do_hcall] in H. rewrite O in H.
  destruct (v_fs w f) as [| |x] eqn:F; try (injection H as H1; subst w'; apply same_refl).
  cbn [kind_write] in H. destruct (hdf_write x a) as [y| |] eqn:E; cbn [obind] in H; try discriminate.
  injection H as H1. subst w'. split; [|reflexivity]. cbn [v_fs]. intro g. destruct (str_eqb_spec g f) as [C | C].
  - subst g. rewrite put_file_same. auto.
  - apply put_file_other. exact C.
Qed.
Lemma write_read_only : forall rn rs w i a k f, v_obj w i = Some (HObj k (PFile f false)) ->
  do_hcall rn rs w (HWr i a) = (Throw, w).
Proof. intros rn rs w i a k f O. cbn [do_hcall]. rewrite O. reflexivity. Qed.

(** * Opening *)
Lemma open_ok : forall rn rs w i f m l t w' o, v_obj w i = Some o -> do_hcall rn rs w (HOpen i f m l t) = (Ok HDone, w') ->
  v_obj w' i = Some (HObj (o_kind o) (PFile f (match m with MRead => false | _ => true end))) /\
  (forall j, j <> i -> v_obj w' j = v_obj w j) /\ (forall g, g <> f -> v_fs w' g = v_fs w g) /\
  (m <> MWrite -> v_fs w' f = v_fs w f /\ exists x, v_fs w f = FHdf x) /\
  (m = MWrite -> exists x, v_fs w' f = FHdf x /\ h_sets x = [] /\ h_attrs x = [] /\ h_groups x = [] /\
     match o_kind o with KHdf => h_block x = [] | KMat => user_block t = Ok (h_block x) end).
Proof.
  intros rn rs w i f m l t w' o O H. cbn [do_hcall] in H. rewrite O in H.
  destruct (hdf_open (v_fs w) o f m l t) as [[ro o'] fs'] eqn:E. injection H as H1 H2. subst w'. cbn [v_fs v_obj].
  apply hdf_open_cases in E. destruct E as [(R & Eo & E1 & E2) | (R & _)].
  - rewrite put_obj_same, Eo. split; [reflexivity|]. split; [intros j J; apply put_obj_other; exact J|].
    assert (D : m = MWrite \/ m <> MWrite) by (destruct m; auto; right; discriminate).
    destruct D as [D | D].
    + destruct (E2 D) as (b & Eb & K). rewrite Eb. split; [intros g G; apply put_file_other; exact G|]. split; [contradiction|].
      intros _. exists (empty_file b). split; [apply put_file_same|]. split; [reflexivity|]. split; [reflexivity|]. split; [reflexivity|]. exact K.
    + destruct (E1 D) as (Ef & Ex). rewrite Ef. split; [reflexivity|]. split; [auto|contradiction].
  - destruct ro as [[]| |]; [contradiction R; reflexivity|discriminate..].
Qed.
Lemma open_throw : forall rn rs w i f m l t w', do_hcall rn rs w (HOpen i f m l t) = (Throw, w') ->
  (forall j, v_obj w' j = v_obj w j) /\ (forall g, g <> f \/ m <> MWrite -> v_fs w' g = v_fs w g) /\
  (forall k p, v_obj w i = Some (HObj k p) -> k = KHdf -> v_fs w' f = v_fs w f).
Proof.
  intros rn rs w i f m l t w' H. cbn [do_hcall] in H. destruct (v_obj w i) as [o|] eqn:O; [|discriminate].
  destruct (hdf_open (v_fs w) o f m l t) as [[ro o'] fs'] eqn:E. injection H as H1 H2. subst w'. cbn [v_fs v_obj].
  apply hdf_open_cases in E. destruct E as [(R & _) | (R & Eo & E)]; [subst ro; discriminate|]. split; [|split].
  - intro j. destruct (Nat.eq_dec j i) as [C | C]; [subst j; rewrite put_obj_same, O, Eo; reflexivity|apply put_obj_other; exact C].
  - intros g G. destruct E as [E | (M & _ & _ & E)]; rewrite E; [reflexivity|]. apply put_file_other. destruct G as [G | G]; [exact G|contradiction].
  - intros k p C Ck. assert (Ek : o_kind o = KHdf) by (injection C as C; rewrite C; cbn [o_kind]; exact Ck). destruct E as [E | (_ & E2 & _)]; [rewrite E; reflexivity|congruence].
Qed.
Lemma open_missing : forall rn rs w i o f m l t, v_obj w i = Some o -> m <> MWrite -> (forall x, v_fs w f <> FHdf x) ->
  fst (do_hcall rn rs w (HOpen i f m l t)) = Throw.
Proof.
  intros rn rs w i o f m l t O M F. cbn [do_hcall]. rewrite O. unfold hdf_open.
  destruct m; [| |contradiction]; destruct (v_fs w f) as [| |x] eqn:E; try reflexivity; exfalso; exact (F x eq_refl).
Qed.

(** * Objects *)
Definition obj_open (o : option hobj) : bool := match o with Some (HObj _ (PFile _ _)) => true | _ => false end.
Definition obj_set (o : option hobj) : bool := match o with Some (HObj _ PUnset) | None => false | _ => true end.
Definition obj_there (o : option hobj) : bool := match o with Some _ => true | None => false end.
Lemma step_obj : forall rn rs w c r w', do_hcall rn rs w c = (r, w') -> r <> UB -> forall i,
  obj_open (v_obj w' i) = is_open i (obj_open (v_obj w i)) [(c, r)] /\
  obj_set (v_obj w' i) = was_opened i (obj_set (v_obj w i)) [(c, r)] /\
  obj_there (v_obj w' i) = exists_now i (obj_there (v_obj w i)) [(c, r)].
Proof.
  intros rn rs w c r w' H U i. destruct c as [j k|j g m l t|j|j|j a|j a]; cbn [do_hcall] in H.
  - injection H as H1 H2. subst w' r. cbn [v_obj is_open was_opened exists_now]. unfold put_obj. rewrite (Nat.eqb_sym j i).
    destruct (Nat.eqb i j); auto.
  - destruct (v_obj w j) as [o|] eqn:O; [|injection H as H1 H2; congruence].
    destruct (hdf_open (v_fs w) o g m l t) as [[ro o'] fs'] eqn:E. injection H as H1 H2. subst w'. cbn [v_obj].
    apply hdf_open_cases in E. unfold put_obj. destruct (Nat.eqb_spec i j) as [C | C].
    + subst j. destruct E as [(R & Eo & _) | (R & Eo & _)].
      * subst ro r o'. cbn [obind is_open was_opened exists_now]. rewrite Nat.eqb_refl, O. auto.
      * subst o'. rewrite O. destruct ro as [[]| |]; [contradiction R; reflexivity|subst r; cbn [obind is_open was_opened exists_now]; auto..].
    + assert (N : Nat.eqb j i = false) by (apply Nat.eqb_neq; auto).
      destruct r as [a| |]; cbn [is_open was_opened exists_now]; rewrite ?N; auto.
  - destruct (v_obj w j) as [[k [| |g b]]|] eqn:O; injection H as H1 H2; try congruence. subst w' r.
    cbn [v_obj is_open was_opened exists_now]. unfold put_obj. rewrite (Nat.eqb_sym j i). destruct (Nat.eqb_spec i j) as [C | C]; [subst j; rewrite ?O|]; auto.
  - destruct (v_obj w j) as [[k [| |g b]]|] eqn:O; injection H as H1 H2; try congruence; subst w' r;
    cbn [v_obj is_open was_opened exists_now]; unfold put_obj; rewrite (Nat.eqb_sym j i); (destruct (Nat.eqb_spec i j) as [C | C]; [subst j; rewrite ?O|]; auto).
  - assert (Q : v_obj w' i = v_obj w i).
    { destruct (v_obj w j) as [[k [| |g b]]|] eqn:O; try (injection H as H1 H2; subst w'; reflexivity).
      destruct b; [|injection H as H1 H2; subst w'; reflexivity].
      destruct (v_fs w g) as [| |h]; try (injection H as H1 H2; subst w'; reflexivity).
      destruct (kind_write k h a). injection H as H1 H2; subst w'; reflexivity. }
    rewrite Q. cbn [is_open was_opened exists_now]. auto.
  - apply read_nothing in H. subst w'. cbn [is_open was_opened exists_now]. auto.
Qed.
Lemma is_open_cons : forall i b e tr, is_open i b (e :: tr) = is_open i (is_open i b [e]) tr.
Proof. intros i b [c r] tr. destruct c; destruct r; reflexivity. Qed.
Lemma was_opened_cons : forall i b e tr, was_opened i b (e :: tr) = was_opened i (was_opened i b [e]) tr.
Proof. intros i b [c r] tr. destruct c; destruct r; reflexivity. Qed.
Lemma exists_now_cons : forall i b e tr, exists_now i b (e :: tr) = exists_now i (exists_now i b [e]) tr.
Proof. intros i b [c r] tr. destruct c; destruct r; reflexivity. Qed.
Lemma run_obj : forall rn rs w tr w', run rn rs w tr w' -> forall i,
  obj_open (v_obj w' i) = is_open i (obj_open (v_obj w i)) tr /\
  obj_set (v_obj w' i) = was_opened i (obj_set (v_obj w i)) tr /\
  obj_there (v_obj w' i) = exists_now i (obj_there (v_obj w i)) tr.
Proof.
  intros rn rs w tr w' H. induction H as [w|w c r w1 tr w2 D U R IH]; intro i; [auto|].
  destruct (IH i) as (A & B & C). destruct (step_obj _ _ _ _ _ _ D U i) as (A1 & B1 & C1).
  rewrite is_open_cons, was_opened_cons, exists_now_cons, <- A1, <- B1, <- C1. auto.
Qed.
Lemma close_defined : forall rn rs fs tr w i, run rn rs (start fs) tr w ->
  (fst (do_hcall rn rs w (HClose i)) = UB <-> is_open i false tr = false) /\
  (fst (do_hcall rn rs w (HDelete i)) = UB <-> was_opened i false tr = false) /\
  (is_open i false tr = false -> forall r, fst (do_hcall rn rs w (HRd i r)) = UB) /\
  (is_open i false tr = false -> forall a, fst (do_hcall rn rs w (HWr i a)) = UB) /\
  (exists_now i false tr = false <-> exists f m l t, m <> MWrite /\ fst (do_hcall rn rs w (HOpen i f m l t)) = UB).
Proof.
  intros rn rs fs tr w i R. destruct (run_obj _ _ _ _ _ R i) as (A & B & C). cbn [start v_obj obj_open obj_set obj_there] in A, B, C.
  rewrite <- A, <- B, <- C. cbn [do_hcall].
  destruct (v_obj w i) as [[k [| |g b]]|] eqn:O; cbn [obj_open obj_set obj_there fst];
    (split; [split; intro Q; congruence || reflexivity|]; split; [split; intro Q; congruence || reflexivity|];
     split; [intros Q r; congruence || reflexivity|]; split; [intros Q r; congruence || reflexivity|]).
  1-3: split; [discriminate|]; intros (f & m & l & t & M & Q); exfalso; unfold hdf_open in Q;
    (destruct m; [| |contradiction]; destruct (v_fs w f); destruct l; cbn [fst obind] in Q; discriminate).
  split; [intros _|reflexivity]. exists [], MRead, LOk, (Tm 0 0 0 0 0 0 0). split; [discriminate|reflexivity].
Qed.

(** * Names *)
Lemma mem_str_in : forall s l, mem_str s l = true <-> In s l.
Proof.
  intros s l. unfold mem_str. rewrite existsb_exists. split.
  - intros (x & I & E). apply str_eqb_eq in E. subst. exact I.
  - intro I. exists s. split; [exact I|]. apply str_eqb_eq. reflexivity.
Qed.
Lemma group_of_none : forall n, group_of n = None <-> ~ In "/"%char n.
Proof.
  induction n as [|c r IH]; cbn [group_of]; [split; auto|]. destruct (group_of r) as [g|] eqn:E.
  - split; [discriminate|]. intro H. exfalso. assert (Q : Some g = None) by (apply IH; intro I; apply H; right; exact I). discriminate.
  - destruct (Ascii.eqb_spec c "/"%char) as [C | C].
    + split; [discriminate|]. intro H. exfalso. apply H. left. exact C.
    + split; [|reflexivity]. intros _ [I | I]; [contradiction|]. apply (proj1 IH eq_refl). exact I.
Qed.
Lemma group_of_some : forall n g, group_of n = Some g <-> exists b, n = g ++ "/"%char :: b /\ ~ In "/"%char b.
Proof.
  induction n as [|c r IH]; intro g; cbn [group_of].
  - split; [discriminate|]. intros (b & E & _). destruct g; discriminate.
  - destruct (group_of r) as [h|] eqn:E.
    + split.
      * intro H. injection H as H. subst g. destruct (proj1 (IH h) eq_refl) as (b & Er & N). exists b. split; [rewrite Er; reflexivity|exact N].
      * intros (b & Er & N). destruct g as [|c' g']; cbn [app] in Er; injection Er as E1 E2.
        -- subst b. exfalso. assert (Q : group_of r = None) by (apply group_of_none; exact N). congruence.
        -- assert (Q : Some h = Some g') by (apply IH; exists b; split; [exact E2|exact N]). injection Q as Q. rewrite Q, E1. reflexivity.
    + destruct (Ascii.eqb_spec c "/"%char) as [C | C].
      * split.
        -- intro H. injection H as H. subst g. exists r. split; [subst c; reflexivity|]. apply group_of_none. exact E.
        -- intros (b & Er & N). destruct g as [|c' g']; [reflexivity|]. cbn [app] in Er. injection Er as E1 E2.
           exfalso. assert (Q : (None : option str) = Some g') by (apply IH; exists b; split; [exact E2|exact N]). discriminate.
      * split; [discriminate|]. intros (b & Er & N). destruct g as [|c' g']; cbn [app] in Er; injection Er as E1 E2; [contradiction|].
        exfalso. assert (Q : (None : option str) = Some g') by (apply IH; exists b; split; [exact E2|exact N]). discriminate.
Qed.
Lemma nameless_app : forall g b, ~ In "/"%char b -> nameless (g ++ "/"%char :: b) = match b with [] => true | _ => false end.
Proof.
  intros g b N. unfold nameless. rewrite rev_app_distr. cbn [rev]. rewrite <- app_assoc. destruct b as [|c b] using rev_ind; [reflexivity|]. rewrite rev_app_distr. cbn [rev app].
  destruct (b ++ [c]) eqn:E; [destruct b; discriminate E|]. apply Ascii.eqb_neq. intros ->. apply N. rewrite <- E. apply in_or_app. right. left. reflexivity.
Qed.
Lemma nameless_bare : forall b, ~ In "/"%char b -> nameless b = match b with [] => true | _ => false end.
Proof.
  intros b N. unfold nameless. destruct b as [|c b] using rev_ind; [reflexivity|]. rewrite rev_app_distr. cbn [rev app].
  destruct (b ++ [c]) eqn:E; [destruct b; discriminate E|]. apply Ascii.eqb_neq. intros ->. apply N. rewrite <- E. apply in_or_app. right. left. reflexivity.
Qed.
Lemma group_exists_spec : forall x n, group_exists x n = true <-> in_group x n.
Proof.
  intros x n. unfold group_exists, in_group. destruct (group_of n) as [g|] eqn:E.
  - destruct (proj1 (group_of_some n g) E) as (b & En & Nb). rewrite En at 1. rewrite (nameless_app g b Nb). split.
    + intro I. destruct b as [|c b]; [discriminate I|]. cbn [negb andb] in I. exists (c :: b). split; [discriminate|]. split; [exact Nb|]. right.
      destruct g as [|c' g]; [left; exact En|]. right. exists (c' :: g). split; [exact En|]. apply mem_str_in. exact I.
    + intros (b' & NE & N' & [H | H]).
      * exfalso. apply N'. rewrite <- H, En. apply in_or_app. right. left. reflexivity.
      * assert (Q : group_of n = Some g -> exists g', n = g' ++ "/"%char :: b' /\ (g' = [] \/ In g' (h_groups x))).
        { intros _. destruct H as [H|(g' & H & I)]; [exists []; split; [exact H|left; reflexivity]|exists g'; split; [exact H|right; exact I]]. }
        destruct (Q E) as (g' & E' & I). assert (Q2 : group_of n = Some g') by (apply group_of_some; exists b'; auto). rewrite E in Q2. injection Q2 as <-.
        rewrite En in E'. apply app_inv_head in E'. injection E' as ->. destruct b' as [|c b']; [congruence|]. cbn [negb andb].
        destruct g as [|c' g]; [reflexivity|]. destruct I as [I|I]; [discriminate I|]. apply mem_str_in. exact I.
  - apply group_of_none in E. rewrite (nameless_bare n E). split.
    + intros I. exists n. destruct n; [discriminate I|]. split; [discriminate|]. split; [exact E|left; reflexivity].
    + intros (b & NE & Nb & [-> | [-> | (g & -> & I)]]).
      * destruct b; [congruence|reflexivity].
      * exfalso. apply E. left. reflexivity.
      * exfalso. apply E. apply in_or_app. right. left. reflexivity.
Qed.
Lemma h_create_iff : forall x n d, ((exists y, h_create x n d = Ok y) <-> in_group x n /\ ~ used x n) /\ h_create x n d <> UB.
Proof.
  intros x n d. unfold h_create, h5_create, used. rewrite <- group_exists_spec, <- mem_str_in.
  destruct (group_exists x n); destruct (mem_str n (h_groups x)); cbn [andb negb];
    try (split; [|discriminate]; split; [intros [y Y]; discriminate|]; intros [A B]; exfalso; (discriminate || (apply B; left; reflexivity))).
  destruct (find n (h_sets x)) as [e|]; cbn [obind].
  - split; [|discriminate]. split; [intros [y Y]; discriminate|]. intros [A B]. exfalso. apply B. right. exists e. reflexivity.
  - split; [|discriminate]. split; [intros _|].
    + split; [reflexivity|]. intros [C | [e C]]; discriminate.
    + intros _. eexists. reflexivity.
Qed.
Lemma h_create_group_iff : forall x n, ((exists y, h_create_group x n = Ok y) <-> in_group x n /\ ~ used x n) /\ h_create_group x n <> UB.
Proof.
  intros x n. unfold h_create_group, h5_has, used. rewrite <- group_exists_spec, <- mem_str_in.
  destruct (group_exists x n); destruct (mem_str n (h_groups x)); cbn [andb negb];
    try (split; [|discriminate]; split; [intros [y Y]; discriminate|]; intros [A B]; exfalso; (discriminate || (apply B; left; reflexivity))).
  destruct (find n (h_sets x)) as [e|]; cbn [negb].
  - split; [|discriminate]. split; [intros [y Y]; discriminate|]. intros [A B]. exfalso. apply B. right. exists e. reflexivity.
  - split; [|discriminate]. split; [intros _|].
    + split; [reflexivity|]. intros [C | [e C]]; discriminate.
    + intros _. eexists. reflexivity.
Qed.

(** * Attributes *)
Lemma h_create_attrs : forall x n d y, h_create x n d = Ok y -> attrs_ok x -> attrs_ok y.
Proof.
  intros x n d y H A d' n' a F. apply h_create_ok in H. destruct H as ((_ & _ & K & _) & _ & _ & _ & _ & Ea & _).
  rewrite Ea in F. destruct (A _ _ _ F) as (e & E). exists e. apply K. exact E.
Qed.
Lemma h_add_attr_attrs : forall x d n a y, h_add_attr x d n a = Ok y -> attrs_ok x -> attrs_ok y.
Proof.
  intros x d n a y H A d' n' b F. apply h_add_attr_ok in H. destruct H as (_ & D & _ & _ & O & _ & S & _). rewrite S.
  destruct (str_eqb_spec d' d) as [E | E].
  - subst d'. unfold h5_has in D. destruct (find d (h_sets x)) as [e|]; [|discriminate]. exists e. reflexivity.
  - rewrite O in F by congruence. exact (A _ _ _ F).
Qed.
Lemma h_create_group_attrs : forall x n y, h_create_group x n = Ok y -> attrs_ok x -> attrs_ok y.
Proof.
  intros x n y H A d' n' a F. apply h_create_group_ok in H. destruct H as (_ & _ & S & E & _). rewrite S. rewrite E in F. exact (A _ _ _ F).
Qed.
Lemma mat_text_attrs : forall x n v y, mat_text x n v = Ok y -> attrs_ok x -> attrs_ok y.
Proof.
  intros x n v y H A. unfold mat_text in H.
  destruct (h_create x n _) as [x1| |] eqn:E1; cbn [obind] in H; try discriminate.
  destruct (h_add_attr x1 n class_name _) as [x2| |] eqn:E2; cbn [obind] in H; try discriminate.
  eapply h_add_attr_attrs; [exact H|]. eapply h_add_attr_attrs; [exact E2|]. eapply h_create_attrs; [exact E1|exact A].
Qed.
Lemma hdf_write_attrs : forall x w y, hdf_write x w = Ok y -> attrs_ok x -> attrs_ok y.
Proof.
  intros x w y H A. destruct w; cbn [hdf_write] in H;
    try (eapply h_create_attrs; [exact H|exact A]); try (eapply h_add_attr_attrs; [exact H|exact A]).
  - destruct rows; [discriminate|]. eapply h_create_attrs; [exact H|exact A].
  - eapply h_create_group_attrs; [exact H|exact A].
Qed.
Lemma kind_write_attrs : forall k x w r y, kind_write k x w = (r, y) -> attrs_ok x -> attrs_ok y.
Proof.
  intros k x w r y H A. destruct k; cbn [kind_write] in H.
  - destruct (hdf_write x w) as [z| |] eqn:E; injection H as H1 H2; subst; try exact A. exact (hdf_write_attrs _ _ _ E A).
  - destruct w as [t n l|t n nc rows|t n dims data|n v|n|d n v|d n v]; cbn [mat_write] in H; cbv zeta beta in H.
    + destruct (hdf_write x _) as [z| |] eqn:E; injection H as H1 H2; subst; try exact A. exact (hdf_write_attrs _ _ _ E A).
    + destruct (hdf_write x _) as [z| |] eqn:E; [|injection H as H1 H2; subst; exact A..].
      apply hdf_write_attrs in E; [|exact A].
      destruct (h_add_attr z n class_name _) as [u| |] eqn:E2; injection H as H1 H2; subst; try exact E.
      exact (h_add_attr_attrs _ _ _ _ _ E2 E).
    + assert (G : forall g, (match hdf_write x (WMulti t n dims data) with
        | Ok y0 => match g y0 with Ok z => (Ok tt, z) | Throw => (Throw, y0) | UB => (UB, y0) end
        | Throw => (Throw, x) | UB => (UB, x) end) = (r, y) -> (forall a b, g a = Ok b -> attrs_ok a -> attrs_ok b) -> attrs_ok y).
      { intros g G K. destruct (hdf_write x _) as [z| |] eqn:E; [|injection G as H1 H2; subst; exact A..].
        apply hdf_write_attrs in E; [|exact A]. destruct (g z) as [u| |] eqn:E2; injection G as H1 H2; subst; try exact E.
        exact (K _ _ E2 E). }
      destruct t;
        (eapply G; [exact H|]; intros a b Q; cbv beta in Q;
         first [exact (h_add_attr_attrs _ _ _ _ _ Q) | exact (mat_text_attrs _ _ _ _ Q)]).
    + destruct (mat_text x n v) as [z| |] eqn:E; injection H as H1 H2; subst; try exact A. exact (mat_text_attrs _ _ _ _ E A).
    + destruct (hdf_write x _) as [z| |] eqn:E; injection H as H1 H2; subst; try exact A. exact (hdf_write_attrs _ _ _ E A).
    + destruct (h_create x _ _) as [z| |] eqn:E; injection H as H1 H2; subst; try exact A. exact (h_create_attrs _ _ _ _ E A).
    + destruct (mat_text x _ v) as [z| |] eqn:E; injection H as H1 H2; subst; try exact A. exact (mat_text_attrs _ _ _ _ E A).
Qed.
Lemma step_files_ok : forall rn rs w c r w', do_hcall rn rs w c = (r, w') -> files_ok w -> files_ok w'.
Proof.
  intros rn rs w c r w' H A. destruct c as [i k|i g m l t|i|i|i a|i a]; cbn [do_hcall] in H.
  - injection H as H1 H2. subst w'. exact A.
  - destruct (v_obj w i) as [o|]; [|injection H as H1 H2; subst w'; exact A].
    destruct (hdf_open (v_fs w) o g m l t) as [[ro o'] fs'] eqn:E. injection H as H1 H2. subst w'. intros f x F. cbn [v_fs] in F.
    assert (G : forall b, fs' = put_file (v_fs w) g (FHdf (empty_file b)) -> attrs_ok x).
    { intros b Eb. rewrite Eb in F. destruct (str_eqb_spec f g) as [C | C].
      - subst g. rewrite put_file_same in F. injection F as F. subst x. intros d n a' Q. discriminate.
      - rewrite put_file_other in F by exact C. exact (A _ _ F). }
    apply hdf_open_cases in E. destruct E as [(_ & _ & E1 & E2) | (_ & _ & [E | (M & _ & _ & E)])].
    + destruct m; [rewrite (proj1 (E1 ltac:(discriminate))) in F; exact (A _ _ F)|rewrite (proj1 (E1 ltac:(discriminate))) in F; exact (A _ _ F)|].
      destruct (E2 eq_refl) as (b & Eb & _). exact (G b Eb).
    + rewrite E in F. exact (A _ _ F).
    + exact (G _ E).
  - destruct (v_obj w i) as [[k [| |g b]]|]; injection H as H1 H2; subst w'; exact A.
  - destruct (v_obj w i) as [[k [| |g b]]|]; injection H as H1 H2; subst w'; exact A.
  - destruct (v_obj w i) as [[k [| |g b]]|] eqn:O; try (injection H as H1 H2; subst w'; exact A).
    destruct b; [|injection H as H1 H2; subst w'; exact A].
    destruct (v_fs w g) as [| |h] eqn:G; try (injection H as H1 H2; subst w'; exact A).
    destruct (kind_write k h a) as [q h'] eqn:K. injection H as H1 H2. subst w'. intros f x F. cbn [v_fs] in F.
    destruct (str_eqb_spec f g) as [C | C].
    + subst g. rewrite put_file_same in F. injection F as F. subst x. exact (kind_write_attrs _ _ _ _ _ K (A _ _ G)).
    + rewrite put_file_other in F by exact C. exact (A _ _ F).
  - apply read_nothing in H. subst w'. exact A.
Qed.
Lemma run_files_ok : forall rn rs w tr w', run rn rs w tr w' -> files_ok w -> files_ok w'.
Proof.
  intros rn rs w tr w' H. induction H as [w|w c r w1 tr w2 D U R IH]; intro A; [exact A|].
  apply IH. exact (step_files_ok _ _ _ _ _ _ D A).
Qed.
Lemma mat_text_iff : forall x n v, attrs_ok x -> ((exists y, mat_text x n v = Ok y) <-> in_group x n /\ ~ used x n) /\ mat_text x n v <> UB.
Proof.
  intros x n v A. pose proof (h_create_iff x n (Dataset HU16 [Z.of_nat (length v); 1] (map (fun c => inject_Z (ushort_of_char c)) v))) as [I U].
  unfold mat_text. destruct (h_create x n _) as [x1| |] eqn:E; cbn [obind].
  - assert (Q : exists y, obind (h_add_attr x1 n class_name (AText (str_of "char"))) (fun x2 => h_add_attr x2 n (str_of "MATLAB_int_decode") (AInt 2)) = Ok y).
    { pose proof (h_create_ok _ _ _ _ E) as (_ & N & F & _ & _ & Ea & _).
      assert (H1 : h5_has (h_sets x1) n = true) by (unfold h5_has; rewrite F; reflexivity).
      assert (NA : forall m, find_attr n m (h_attrs x1) = None).
      { intro m. rewrite Ea. destruct (find_attr n m (h_attrs x)) as [a|] eqn:G; [|reflexivity].
        destruct (A _ _ _ G) as (e & C). congruence. }
      destruct (h_add_attr x1 n class_name (AText (str_of "char"))) as [x2| |] eqn:E2.
      - cbn [obind]. apply h_add_attr_ok in E2. destruct E2 as (K2 & _ & _ & _ & O & _ & _ & _).
        unfold h_add_attr. rewrite (has_kept _ _ _ K2 H1), O, NA by (intro C; injection C; discriminate). eexists. reflexivity.
      - unfold h_add_attr in E2. rewrite H1, NA in E2. discriminate.
      - unfold h_add_attr in E2. rewrite H1, NA in E2. discriminate. }
    destruct Q as (y & Q). rewrite Q. split; [|discriminate]. rewrite <- I. split; intros _; eexists; reflexivity.
  - split; [|discriminate]. rewrite <- I. split; intros (y & Y); discriminate.
  - contradiction.
Qed.
Lemma class_stored : forall x w y n c, kind_write KMat x w = (Ok tt, y) -> matlab_class w = Some (n, c) ->
  find_attr n class_name (h_attrs y) = Some (AText c) /\ h5_has (h_sets y) n = true.
Proof.
  intros x w y n c H M. pose proof (kind_write_stored _ _ _ _ H) as S. cbn [kind_write] in H.
  destruct w as [t n0 l|t n0 nc rows|t n0 dims data|n0 v|n0|d n0 v|d n0 v]; try discriminate; cbn [mat_write] in H; cbv zeta beta in H.
  - assert (Mn : n = n0 /\ c = mat_class t) by (destruct t; try discriminate; injection M as M1 M2; auto). destruct Mn. subst n c.
    destruct (hdf_write x _) as [z| |] eqn:E; try discriminate.
    destruct (h_add_attr z n0 class_name _) as [u| |] eqn:E2; try discriminate. injection H as H. subst u.
    apply h_add_attr_ok in E2. destruct E2 as (K & A & _ & B & _). split; [exact B|exact (has_kept _ _ _ K A)].
  - destruct t; try discriminate. injection M as M1 M2. subst n0 c.
    destruct (hdf_write x _) as [z| |] eqn:E; try discriminate.
    destruct (h_add_attr z n class_name _) as [u| |] eqn:E2; try discriminate. injection H as H. subst u.
    apply h_add_attr_ok in E2. destruct E2 as (K & A & _ & B & _). split; [exact B|exact (has_kept _ _ _ K A)].
  - injection M as M1 M2. subst n0 c. destruct (mat_text x n v) as [z| |] eqn:E; try discriminate. injection H as H. subst z.
    apply mat_text_ok in E. destruct E as (_ & _ & F & A). split; [exact A|]. unfold h5_has. rewrite F. reflexivity.
Qed.
