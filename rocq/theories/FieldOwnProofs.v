From Verif Require Import Base FieldOwnModel FieldOwnSpec.

Section Proofs.
Variable A : Type.
Implicit Types h : heap A.
Implicit Types w : world A.

Lemma rd_ok : forall h p v, rd h p = Ok v <-> nth_error h p = Some (Some v).
Proof. intros h p v. unfold rd. destruct (nth_error h p) as [[x|]|]; split; intro H; try discriminate; congruence. Qed.

Lemma rd_throw : forall h p, rd h p <> Throw.
Proof. intros h p. unfold rd. destruct (nth_error h p) as [[x|]|]; discriminate. Qed.

Lemma upd_same : forall h p x y, nth_error h p = Some y -> nth_error (upd h p x) p = Some x.
Proof.
  induction h as [|z h IH]; intros [|p] x y H; cbn in *; try discriminate; [reflexivity|]. exact (IH _ _ _ H).
Qed.

Lemma upd_other : forall h p q x, p <> q -> nth_error (upd h p x) q = nth_error h q.
Proof.
  induction h as [|z h IH]; intros p q x N; [destruct p; reflexivity|].
  destruct p as [|p], q as [|q]; cbn; try reflexivity; [congruence|]. apply IH. congruence.
Qed.

Lemma upd_length : forall h p x, length (upd h p x) = length h.
Proof. induction h as [|z h IH]; intros [|p] x; cbn; try reflexivity. now rewrite IH. Qed.

Lemma fre_ok : forall h p h', fre h p = Ok h' <-> (exists v, nth_error h p = Some (Some v)) /\ h' = upd h p None.
Proof.
  intros h p h'. unfold fre. destruct (rd h p) as [v| |] eqn:E; cbn [obind]; split; intro H; try discriminate.
  - apply rd_ok in E. split; [exists v; exact E|congruence].
  - destruct H as (_ & ->). reflexivity.
  - destruct H as ((v & E') & _). apply rd_ok in E'. congruence.
  - destruct H as ((v & E') & _). apply rd_ok in E'. congruence.
Qed.

(** Releasing several arrays. *)
Lemma fre_all_ok : forall ps h h', fre_all h ps = Ok h' ->
  NoDup ps /\ (forall p, In p ps -> exists v, nth_error h p = Some (Some v)) /\
  (forall p, In p ps -> nth_error h' p = Some None) /\
  (forall p, ~ In p ps -> nth_error h' p = nth_error h p) /\ length h' = length h.
Proof.
  induction ps as [|q ps IH]; intros h h' H; cbn [fre_all] in H.
  - injection H as <-. split; [constructor|]. repeat split; try (intros p []); tauto.
  - destruct (fre h q) as [h1| |] eqn:F; cbn [obind] in H; try discriminate H.
    apply fre_ok in F. destruct F as ((v & E) & ->).
    destruct (IH _ _ H) as (N & L & D & K & LEN). rewrite upd_length in LEN.
    assert (NI : ~ In q ps).
    { intro I'. destruct (L q I') as (u & X). rewrite (upd_same _ _ None _ E) in X. discriminate X. }
    split; [now constructor|]. split; [|split; [|split; [|exact LEN]]].
    + intros p [<-|I']; [exists v; exact E|]. destruct (L p I') as (u & X). exists u.
      rewrite upd_other in X; [exact X|]. intros ->. exact (NI I').
    + intros p [<-|I']; [|exact (D p I')]. rewrite (K q NI). exact (upd_same _ _ _ _ E).
    + intros p NP. cbn [In] in NP. rewrite (K p) by tauto. apply upd_other. tauto.
Qed.

Lemma fre_all_defined : forall ps h, NoDup ps -> (forall p, In p ps -> exists v, nth_error h p = Some (Some v)) ->
  exists h', fre_all h ps = Ok h'.
Proof.
  induction ps as [|q ps IH]; intros h N L; cbn [fre_all]; [eauto|].
  destruct (L q (or_introl eq_refl)) as (v & E).
  assert (F : fre h q = Ok (upd h q None)) by (apply fre_ok; split; [exists v; exact E|reflexivity]).
  rewrite F. cbn [obind]. apply NoDup_cons_iff in N. destruct N as (NI & N). apply IH; [exact N|].
  intros p I'. destruct (L p (or_intror I')) as (u & X). exists u. rewrite upd_other; [exact X|]. intros ->. exact (NI I').
Qed.

Lemma fre_all_not_throw : forall ps h, fre_all h ps <> Throw.
Proof.
  induction ps as [|q ps IH]; intro h; cbn [fre_all]; [discriminate|]. unfold fre.
  destruct (rd h q) eqn:E; cbn [obind]; [apply IH|exfalso; exact (rd_throw _ _ E)|discriminate].
Qed.

(** Reading several arrays. *)
Lemma rd_all_defined : forall ps h, (forall p, In p ps -> exists v, nth_error h p = Some (Some v)) ->
  exists vs, rd_all h ps = Ok vs /\ length vs = length ps.
Proof.
  induction ps as [|q ps IH]; intros h L; cbn [rd_all]; [exists []; split; reflexivity|].
  destruct (L q (or_introl eq_refl)) as (v & E). apply rd_ok in E. rewrite E. cbn [obind].
  destruct (IH h (fun p I' => L p (or_intror I'))) as (vs & V & LEN). rewrite V. cbn [obind].
  exists (v :: vs). split; [reflexivity|]. cbn. now rewrite LEN.
Qed.

Lemma rd_all_inv : forall ps h vs, rd_all h ps = Ok vs ->
  length vs = length ps /\ forall p, In p ps -> exists v, nth_error h p = Some (Some v).
Proof.
  induction ps as [|q ps IH]; intros h vs H; cbn [rd_all] in H.
  - injection H as <-. split; [reflexivity|]. intros p [].
  - destruct (rd h q) as [v| |] eqn:E; cbn [obind] in H; try discriminate H.
    destruct (rd_all h ps) as [us| |] eqn:R; cbn [obind] in H; try discriminate H. injection H as <-.
    destruct (IH _ _ R) as (LEN & L). split; [cbn; now rewrite LEN|].
    intros p [<-|I']; [apply rd_ok in E; exists v; exact E|exact (L p I')].
Qed.

Lemma rd_all_not_throw : forall ps h, rd_all h ps <> Throw.
Proof.
  induction ps as [|q ps IH]; intro h; cbn [rd_all]; [discriminate|].
  destruct (rd h q) eqn:E; cbn [obind]; [|exfalso; exact (rd_throw _ _ E)|discriminate].
  destruct (rd_all h ps) eqn:R; cbn [obind]; [discriminate|exfalso; exact (IH _ R)|discriminate].
Qed.

Lemma rd_all_ext : forall ps h h', (forall p, In p ps -> nth_error h' p = nth_error h p) -> rd_all h' ps = rd_all h ps.
Proof.
  induction ps as [|q ps IH]; intros h h' H; [reflexivity|]. cbn [rd_all].
  assert (E : rd h' q = rd h q) by (unfold rd; now rewrite (H q (or_introl eq_refl))).
  rewrite E, (IH h h'); [reflexivity|]. intros p I'. apply H. now right.
Qed.

(** Reading a run of fresh arrays. *)
Lemma rd_all_fresh : forall vs h rest, rd_all (h ++ map Some vs ++ rest) (seq (length h) (length vs)) = Ok vs.
Proof.
  induction vs as [|v vs IH]; intros h rest; [reflexivity|]. cbn [length seq rd_all map app].
  assert (E : rd (h ++ Some v :: map Some vs ++ rest) (length h) = Ok v).
  { apply rd_ok. rewrite nth_error_app2, Nat.sub_diag by lia. reflexivity. }
  rewrite E. cbn [obind].
  specialize (IH (h ++ [Some v]) rest). rewrite <- app_assoc in IH. cbn [app] in IH.
  rewrite app_length, Nat.add_comm in IH. cbn [length Nat.add] in IH. rewrite IH. reflexivity.
Qed.

Lemma rd_all_app : forall ps qs h us vs, rd_all h ps = Ok us -> rd_all h qs = Ok vs -> rd_all h (ps ++ qs) = Ok (us ++ vs).
Proof.
  induction ps as [|p ps IH]; intros qs h us vs H1 H2; cbn [rd_all app] in *.
  - injection H1 as <-. exact H2.
  - destruct (rd h p) as [v| |]; cbn [obind] in *; try discriminate H1.
    destruct (rd_all h ps) as [u| |] eqn:R; cbn [obind] in *; try discriminate H1. injection H1 as <-.
    rewrite (IH _ _ _ _ R H2). reflexivity.
Qed.

(** Objects. *)
Lemma object_ok : forall w i o, object w i = Ok o <-> exists_field w i o.
Proof.
  intros w i o. unfold object, exists_field. destruct (nth_error (w_objs w) i) as [[x|]|]; split; intro H; try discriminate; congruence.
Qed.

Lemma object_throw : forall w i, object w i <> Throw.
Proof. intros w i. unfold object. destruct (nth_error (w_objs w) i) as [[x|]|]; discriminate. Qed.

Lemma drop_same : forall (l : list (option (nfield A))) i y, nth_error l i = Some y -> nth_error (drop l i) i = Some None.
Proof. induction l as [|z l IH]; intros [|i] y H; cbn in *; try discriminate; [reflexivity|]. exact (IH _ _ H). Qed.

Lemma drop_other : forall (l : list (option (nfield A))) i j, i <> j -> nth_error (drop l i) j = nth_error l j.
Proof.
  induction l as [|z l IH]; intros i j N; [destruct i; reflexivity|].
  destruct i as [|i], j as [|j]; cbn; try reflexivity; [congruence|]. apply IH. congruence.
Qed.

Lemma app_last : forall (T : Type) (l : list (option T)) (o x : T) i,
  nth_error (l ++ [Some o]) i = Some (Some x) -> (nth_error l i = Some (Some x) \/ (i = length l /\ x = o)).
Proof.
  intros T l o x i H. destruct (lt_dec i (length l)) as [L|L].
  - left. rewrite nth_error_app1 in H by exact L. exact H.
  - right. rewrite nth_error_app2 in H by lia. destruct (i - length l) as [|k] eqn:E.
    + cbn in H. split; [lia|congruence].
    + cbn in H. destruct k; discriminate H.
Qed.

Lemma make_inv : forall h a o, make h a = Ok o ->
  (given (a_sep a) = true \/ given (a_wall a) = true) /\ n_arr o = a /\ rd_all h (tables a) = Ok (n_spline o) /\
  (exists vs, rd_all h (radius_arrays a) = Ok vs) /\ has_points a.
Proof.
  intros h a o H. unfold make in H.
  destruct (negb (given (a_sep a)) && negb (given (a_wall a))) eqn:B; [discriminate H|].
  destruct (radius_arrays a) as [|p0 ps] eqn:RA; [discriminate H|].
  destruct (rd_all h (p0 :: ps)) as [vs| |] eqn:R; cbn [obind] in H; try discriminate H.
  destruct (rd_all h (tables a)) as [us| |] eqn:T; cbn [obind] in H; try discriminate H.
  injection H as <-. split; [|split; [reflexivity|split; [reflexivity|split; [exists vs; reflexivity|]]]];
    [|unfold radius_arrays in RA; unfold has_points; destruct (a_sep a) as [|r z|r z]; [..|exists r, z; now left];
      (destruct (a_wall a) as [|r' z'|r' z']; cbn [cont_arrays] in RA; try discriminate RA; exists r', z'; now right)].
  destruct (given (a_sep a)), (given (a_wall a)); cbn in B; try discriminate B; tauto.
Qed.

Lemma points_radius : forall a, has_points a -> exists p ps, radius_arrays a = p :: ps.
Proof.
  intros a (r & z & [E | E]); unfold radius_arrays; rewrite E.
  - eauto.
  - destruct (a_sep a); cbn [cont_arrays]; eauto.
Qed.
Lemma make_defined : forall h a, (forall p, In p (pointers a) -> exists v, nth_error h p = Some (Some v)) ->
  (has_points a \/ a_sep a = CNull /\ a_wall a = CNull) ->
  make h a <> UB /\ (make h a = Throw <-> a_sep a = CNull /\ a_wall a = CNull).
Proof.
  intros h a L [HP | [Ns Nw]]; [|unfold make; rewrite Ns, Nw; cbn; split; [discriminate | split; [intros; split; reflexivity | reflexivity]]]. unfold make.
  assert (R : exists vs, rd_all h (radius_arrays a) = Ok vs).
  { destruct (rd_all_defined (radius_arrays a) h) as (vs & V & _); [|eauto]. intros p I'. apply L. unfold pointers, owned.
    unfold radius_arrays in I'. rewrite !in_app_iff. destruct (a_sep a); cbn [cont_arrays] in *; tauto. }
  assert (T : exists vs, rd_all h (tables a) = Ok vs).
  { destruct (rd_all_defined (tables a) h) as (vs & V & _); [|eauto]. intros p I'. apply L. unfold pointers, owned.
    unfold tables in I'. rewrite !in_app_iff in *. tauto. }
  destruct R as (vs & R). destruct T as (us & T). destruct (points_radius a HP) as (p0 & ps & RA). rewrite RA in *. rewrite R, T. cbn [obind].
  destruct HP as (r & z & HP).
  destruct (a_sep a), (a_wall a); (destruct HP as [HP|HP]; try discriminate HP); cbn [given negb andb]; split; try discriminate; split; intros X; try discriminate X;
    try (destruct X; discriminate); try (split; reflexivity); reflexivity.
Qed.

(** What cloning makes. *)
Lemma clone_inv : forall h e o h' o', clone h e o = Ok (h', o') ->
  let a := n_arr o in let a' := n_arr o' in
  exists ext, h' = h ++ map Some ext /\
    rd_all h (tables a) = Ok (n_spline o') /\
    (forall p, In p (pointers a') -> length h <= p < length h') /\
    NoDup (pointers a') /\
    (a_psi a' = None <-> a_psi a = None) /\
    (forall r z, a_sep a = CPoints r z -> exists r' z', a_sep a' = CPoints r' z' /\ rd_all h' [r'; z'] = rd_all h [r; z]) /\
    (forall r z, a_wall a = CPoints r z -> exists r' z', a_wall a' = CPoints r' z' /\ rd_all h' [r'; z'] = rd_all h [r; z]) /\
    ((forall r z, a_wall a <> CPoints r z) -> exists r' z', a_wall a' = CEmpty r' z') /\
    ((forall r z, a_sep a <> CPoints r z) -> exists r' z', a_sep a' = CEmpty r' z').
Proof.
  intros h e o h' o' H a a'. unfold clone in H. fold a in H.
  destruct (rd_all h (a_grid a)) as [g| |] eqn:G; cbn [obind] in H; try discriminate H.
  destruct (clone_contents h e (a_sep a)) as [s| |] eqn:S1; cbn [obind] in H; try discriminate H.
  destruct (clone_contents h e (a_wall a)) as [l| |] eqn:W1; cbn [obind] in H; try discriminate H.
  destruct (rd_all h match a_psi a with Some p => [p] | None => [] end) as [q| |] eqn:Q; cbn [obind] in H; try discriminate H.
  match type of H with obind (make ?hh ?aa) _ = _ => destruct (make hh aa) as [o2| |] eqn:M; cbn [obind] in H; try discriminate H end.
  injection H as <- <-. destruct (make_inv _ _ _ M) as (_ & AR & T & _). unfold a' in *. rewrite AR. clear a'.
  assert (LS : exists s1 s2, s = [s1; s2]).
  { unfold clone_contents in S1. destruct (a_sep a); try (injection S1 as <-; eauto).
    destruct (rd_all_inv _ _ _ S1) as (LEN & _). destruct s as [|s1 [|s2 [|]]]; cbn in LEN; try discriminate LEN. eauto. }
  assert (LL : exists l1 l2, l = [l1; l2]).
  { unfold clone_contents in W1. destruct (a_wall a); try (injection W1 as <-; eauto).
    destruct (rd_all_inv _ _ _ W1) as (LEN & _). destruct l as [|s1 [|s2 [|]]]; cbn in LEN; try discriminate LEN. eauto. }
  destruct LS as (s1 & s2 & ->). destruct LL as (l1 & l2 & ->).
  exists (g ++ [s1; s2] ++ [l1; l2] ++ q).
  split; [reflexivity|].
  assert (LQ : (a_psi a = None /\ q = []) \/ exists p v, a_psi a = Some p /\ q = [v]).
  { destruct (a_psi a) as [p|]; [right|left].
    - destruct (rd_all_inv _ _ _ Q) as (LEN & _). destruct q as [|v [|]]; cbn in LEN; try discriminate LEN. eauto.
    - cbn in Q. injection Q as <-. split; reflexivity. }
  set (n := length h) in *.
  assert (CS : forall k x, nth_error (g ++ [s1; s2] ++ [l1; l2] ++ q) k = Some x ->
            nth_error (h ++ map Some (g ++ [s1; s2] ++ [l1; l2] ++ q)) (n + k) = Some (Some x)).
  { intros k x E. rewrite nth_error_app2 by (unfold n; lia). replace (n + k - length h) with k by (unfold n; lia).
    rewrite nth_error_map, E. reflexivity. }
  assert (CG : forall k x, nth_error ([s1; s2] ++ [l1; l2] ++ q) k = Some x ->
            nth_error (h ++ map Some (g ++ [s1; s2] ++ [l1; l2] ++ q)) (n + length g + k) = Some (Some x)).
  { intros k x E. rewrite <- Nat.add_assoc. apply CS. rewrite nth_error_app2 by lia.
    replace (length g + k - length g) with k by lia. exact E. }
  split.
  { (* the splines hold the contents of the original tables *)
    rewrite <- T. unfold tables. cbn [a_grid a_psi].
    rewrite (rd_all_app _ _ _ _ _ G Q). symmetry. apply rd_all_app.
    - rewrite map_app. apply rd_all_fresh.
    - destruct LQ as [(-> & ->)|(p & v & -> & ->)]; [reflexivity|]. cbn [rd_all].
      assert (E : rd (h ++ map Some (g ++ [s1; s2] ++ [l1; l2] ++ [v])) (n + length g + 4) = Ok v) by (apply rd_ok, CG; reflexivity).
      rewrite E. reflexivity. }
  assert (LEN : length (h ++ map Some (g ++ [s1; s2] ++ [l1; l2] ++ q)) = n + length g + 4 + length q).
  { rewrite app_length, map_length, !app_length. cbn [length]. unfold n. lia. }
  assert (IP : forall p, In p (pointers (mkArrays (seq n (length g))
              match a_psi a with Some _ => Some (n + length g + 4) | None => None end
              (clone_contour (a_sep a) (n + length g)) (clone_contour (a_wall a) (n + length g + 2)))) ->
              (n <= p < n + length g) \/ p = n + length g \/ p = S (n + length g) \/ p = n + length g + 2 \/
              p = S (n + length g + 2) \/ (p = n + length g + 4 /\ length q = 1)).
  { intros p I'. unfold pointers, owned in I'. cbn [a_grid a_psi a_sep a_wall] in I'. rewrite !in_app_iff, in_seq in I'.
    destruct I' as [[I'|[I'|I']]|I'].
    - left. exact I'.
    - destruct (a_wall a); cbn [clone_contour cont_arrays In] in I'; intuition.
    - destruct (a_sep a); cbn [clone_contour cont_arrays In] in I'; intuition.
    - destruct LQ as [(EP & EQ)|(p' & v & EP & EQ)]; rewrite EP in I'; cbn [In] in I'; [tauto|]. rewrite EQ.
      right. right. right. right. right. cbn. intuition. }
  split; [intros p I'; rewrite LEN; destruct (IP p I') as [X|[X|[X|[X|[X|X]]]]]; lia|].
  split.
  { unfold pointers, owned. cbn [a_grid a_psi a_sep a_wall]. rewrite <- !app_assoc.
    assert (ND : forall (x y : list nat), NoDup x -> NoDup y -> (forall u, In u x -> In u y -> False) -> NoDup (x ++ y)).
    { clear. induction x as [|u x IH]; intros y Nx Ny D; [exact Ny|]. cbn [app]. apply NoDup_cons_iff in Nx. destruct Nx as (NI & Nx).
      constructor.
      - rewrite in_app_iff. intros [X|X]; [exact (NI X)|exact (D u (or_introl eq_refl) X)].
      - apply IH; [exact Nx|exact Ny|]. intros v I1 I2. exact (D v (or_intror I1) I2). }
    apply ND; [apply seq_NoDup| |].
    - destruct (a_wall a), (a_sep a), (a_psi a); cbn [clone_contour cont_arrays app];
        repeat constructor; cbn [In]; lia.
    - intros u I1 I2. apply in_seq in I1. rewrite !in_app_iff in I2.
      destruct (a_wall a), (a_sep a), (a_psi a); cbn [clone_contour cont_arrays In] in I2; lia. }
  cbn [a_psi a_sep a_wall].
  split; [destruct (a_psi a); split; intro X; try discriminate X; reflexivity|].
  assert (RC : forall k x y, nth_error ([s1; s2] ++ [l1; l2] ++ q) k = Some x -> nth_error ([s1; s2] ++ [l1; l2] ++ q) (S k) = Some y ->
     rd_all (h ++ map Some (g ++ [s1; s2] ++ [l1; l2] ++ q)) [n + length g + k; S (n + length g + k)] = Ok [x; y]).
  { intros k x y E1 E2. cbn [rd_all].
    assert (F1 := CG _ _ E1). assert (F2 := CG _ _ E2). apply rd_ok in F1. apply rd_ok in F2.
    rewrite <- plus_n_Sm in F2. rewrite F1, F2. reflexivity. }
  split; [|split; [|split]].
  - intros r z E. rewrite E in *. cbn [clone_contour clone_contents] in *. eexists _, _. split; [reflexivity|].
    rewrite S1. specialize (RC 0 s1 s2 eq_refl eq_refl). rewrite Nat.add_0_r in RC. exact RC.
  - intros r z E. rewrite E in *. cbn [clone_contour clone_contents] in *. eexists _, _. split; [reflexivity|].
    rewrite W1. exact (RC 2 l1 l2 eq_refl eq_refl).
  - intro N. destruct (a_wall a) as [| |r z]; cbn [clone_contour]; eauto. exfalso. exact (N r z eq_refl).
  - intro N. destruct (a_sep a) as [| |r z]; cbn [clone_contour]; eauto. exfalso. exact (N r z eq_refl).
Qed.

Lemma clone_defined : forall h e o, (forall p, In p (pointers (n_arr o)) -> exists v, nth_error h p = Some (Some v)) ->
  has_points (n_arr o) ->
  exists h' o', clone h e o = Ok (h', o').
Proof.
  intros h e o L HP. unfold clone. set (a := n_arr o) in *.
  assert (G : exists g, rd_all h (a_grid a) = Ok g).
  { destruct (rd_all_defined (a_grid a) h) as (g & G & _); [|eauto]. intros p I'. apply L. unfold pointers, owned. rewrite !in_app_iff. tauto. }
  assert (S1 : exists s, clone_contents h e (a_sep a) = Ok s /\ length s = 2).
  { unfold clone_contents. destruct (a_sep a) as [|r z|r z] eqn:E; [exists [e; e]; auto|exists [e; e]; auto|].
    destruct (rd_all_defined [r; z] h) as (g & X & Y); [|exists g; auto].
    intros p I'. apply L. unfold pointers, owned. rewrite E, !in_app_iff. cbn [cont_arrays]. tauto. }
  assert (W1 : exists s, clone_contents h e (a_wall a) = Ok s /\ length s = 2).
  { unfold clone_contents. destruct (a_wall a) as [|r z|r z] eqn:E; [exists [e; e]; auto|exists [e; e]; auto|].
    destruct (rd_all_defined [r; z] h) as (g & X & Y); [|exists g; auto].
    intros p I'. apply L. unfold pointers, owned. rewrite E, !in_app_iff. cbn [cont_arrays]. tauto. }
  assert (Q : exists q, rd_all h match a_psi a with Some p => [p] | None => [] end = Ok q /\ (a_psi a <> None -> length q = 1)).
  { destruct (rd_all_defined match a_psi a with Some p => [p] | None => [] end h) as (q & X & Y).
    - intros p I'. apply L. unfold pointers. rewrite in_app_iff. now right.
    - exists q. split; [exact X|]. intro N. rewrite Y. destruct (a_psi a); [reflexivity|congruence]. }
  destruct G as (g & G), S1 as (s & S1 & LS), W1 as (l & W1 & LW), Q as (q & Q & LQ).
  rewrite G, S1, W1, Q. cbn [obind]. cbv zeta.
  match goal with |- context [make ?hh ?aa] => destruct (make_defined hh aa) as (U & T) end.
  { intros p I'. unfold pointers, owned in I'. cbn [a_grid a_psi a_sep a_wall] in I'. rewrite !in_app_iff, in_seq in I'.
    assert (B : length h <= p < length h + length (g ++ s ++ l ++ q)).
    { rewrite !app_length, LS, LW. destruct I' as [[I'|[I'|I']]|I']; [lia|..].
      - destruct (a_wall a); cbn [clone_contour cont_arrays In] in I'; lia.
      - destruct (a_sep a); cbn [clone_contour cont_arrays In] in I'; lia.
      - destruct (a_psi a); cbn [In] in I'; [|tauto]. rewrite LQ by discriminate. lia. }
    rewrite nth_error_app2 by lia. rewrite nth_error_map.
    destruct (nth_error (g ++ s ++ l ++ q) (p - length h)) as [v|] eqn:E; [exists v; reflexivity|].
    apply nth_error_None in E. lia. }
  { left. unfold has_points. cbn [a_sep a_wall]. destruct HP as (r & z & [E | E]); fold a in E; rewrite E; cbn [clone_contour]; eexists _, _; [left | right]; reflexivity. }
  match goal with |- context [make ?hh ?aa] => destruct (make hh aa) as [o2| |] eqn:M end.
  - cbn [obind]. eauto.
  - exfalso. destruct (proj1 T eq_refl) as (X & _). cbn [a_sep] in X. destruct (a_sep a); discriminate X.
  - congruence.
Qed.
End Proofs.
