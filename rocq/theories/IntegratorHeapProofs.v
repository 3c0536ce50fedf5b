(** Proofs for C123. *)
From Coq Require Import List ZArith Reals Lia Bool.
From Verif Require Import Base AlgebraModel IntegratorModel IntegratorSpec IntegratorHeapModel IntegratorHeapSpec.
Import ListNotations.
Local Open Scope Z_scope.

(** * Blocks *)
Lemma blocks_length : forall s, length (blocks_of s) = 8%nat. Proof. reflexivity. Qed.
Lemma with_rest : forall s, with_blocks (rest s) (blocks_of s) = s.
Proof. intros [e p [a b c d f] g [r1 r2 r3 r4 r5 ra] h i j k]. reflexivity. Qed.
Lemma bwrite_pos : forall b i x b', bwrite b i x = Ok b' -> 0 < b_size b'.
Proof.
  intros b i x b' H. unfold bwrite in H. destruct ((0 <=? i) && (i <? b_size b))%bool eqn:E; [|discriminate H].
  injection H as <-. cbn [b_size]. apply andb_prop in E. destruct E as (E1 & E2). apply Z.leb_le in E1. apply Z.ltb_lt in E2. lia.
Qed.
Lemma bwrite_size : forall b i x b', bwrite b i x = Ok b' -> b_size b' = b_size b.
Proof. intros b i x b' H. unfold bwrite in H. destruct ((0 <=? i) && (i <? b_size b))%bool; [|discriminate H]. injection H as <-. reflexivity. Qed.
Lemma obind_ok : forall (A B : Type) (x : outcome A) (g : A -> outcome B) r, obind x g = Ok r -> exists a, x = Ok a /\ g a = Ok r.
Proof. intros A B [a| |] g r H; try discriminate H. exists a. split; [reflexivity|exact H]. Qed.
Lemma write_vec_size : forall n b off v b', write_vec n b off v = Ok b' -> b_size b' = b_size b.
Proof.
  induction n as [|n IH]; intros b off v b' H; cbn [write_vec] in H; [injection H as <-; reflexivity|].
  apply obind_ok in H. destruct H as (b1 & H1 & H2). rewrite (bwrite_size _ _ _ _ H2). exact (IH _ _ _ _ H1).
Qed.
Lemma write_vec_pos : forall n b off v b', (1 <= n)%nat -> write_vec n b off v = Ok b' -> 0 < b_size b'.
Proof.
  intros [|n] b off v b' Hn H; [lia|]. cbn [write_vec] in H. apply obind_ok in H. destruct H as (b1 & _ & H2). exact (bwrite_pos _ _ _ _ H2).
Qed.

(** What a store does to the three arrays. *)
Lemma store_blocks : forall N st t y yp st', (1 <= N)%nat -> store_solution N st t y yp = Ok st' ->
  0 < b_size (s_time st') /\ 0 < b_size (s_sol st') /\ 0 < b_size (s_der st') /\ s_n st' = w32 (s_n st + 1) /\
  ((s_alloc st <= s_n st /\ s_alloc st' = w32 (s_alloc st + 1000) /\ b_size (s_time st') = s_alloc st' /\ b_size (s_sol st') = Z.of_nat N * s_alloc st') \/
   (s_n st < s_alloc st /\ s_alloc st' = s_alloc st /\ b_size (s_time st') = b_size (s_time st) /\ b_size (s_sol st') = b_size (s_sol st))).
Proof.
  intros N st t y yp st' HN H. unfold store_solution in H.
  destruct (s_alloc st <=? s_n st) eqn:E; cbn [s_time s_sol s_der s_n s_alloc] in H;
    apply obind_ok in H; destruct H as (tm & H1 & H); apply obind_ok in H; destruct H as (so & H2 & H); apply obind_ok in H; destruct H as (de & H3 & H);
    injection H as <-; cbn [s_time s_sol s_der s_n s_alloc];
    (split; [exact (bwrite_pos _ _ _ _ H1)|]); (split; [exact (write_vec_pos _ _ _ _ _ HN H2)|]); (split; [exact (write_vec_pos _ _ _ _ _ HN H3)|]); (split; [reflexivity|]).
  - left. apply Z.leb_le in E. split; [exact E|]. split; [reflexivity|]. rewrite (bwrite_size _ _ _ _ H1), (write_vec_size _ _ _ _ _ H2). split; reflexivity.
  - right. apply Z.leb_gt in E. split; [exact E|]. split; [reflexivity|]. rewrite (bwrite_size _ _ _ _ H1), (write_vec_size _ _ _ _ _ H2). split; reflexivity.
Qed.
Lemma dense_blocks : forall N n al r h y1 y2 d1 d2 a r', (1 <= N)%nat -> prepare_dense N n al r h y1 y2 d1 d2 a = Ok r' ->
  0 < b_size (r_c1 r') /\ 0 < b_size (r_c2 r') /\ 0 < b_size (r_c3 r') /\ 0 < b_size (r_c4 r') /\ 0 < b_size (r_c5 r').
Proof.
  intros N n al r h y1 y2 d1 d2 a r' HN H. unfold prepare_dense in H. cbv zeta in H.
  apply obind_ok in H; destruct H as (x1 & H1 & H); apply obind_ok in H; destruct H as (x2 & H2 & H); apply obind_ok in H; destruct H as (x3 & H3 & H);
  apply obind_ok in H; destruct H as (x4 & H4 & H); apply obind_ok in H; destruct H as (x5 & H5 & H).
  injection H as <-. cbn [r_c1 r_c2 r_c3 r_c4 r_c5].
  repeat split; eapply write_vec_pos; eassumption.
Qed.

(** What a call does to the object: the storage is unchanged, or a point was stored, after a
    reset or not; the arrays are unchanged or have cells. *)
Definition stored (N : nat) (s s' : rk) : Prop :=
  k_store s' = k_store s \/
  exists n t y yp, (n = s_n (k_store s) \/ n = 0) /\
    store_solution N (Storage (s_time (k_store s)) (s_sol (k_store s)) (s_der (k_store s)) n (s_alloc (k_store s))) t y yp = Ok (k_store s').
Lemma call_stored : forall N eps fuel s c s', (1 <= N)%nat -> do_call N eps fuel s c = Some (Ok s') ->
  stored N s s' /\ (k_dense s' = k_dense s \/ (0 < b_size (r_c1 (k_dense s')) /\ 0 < b_size (r_c2 (k_dense s')) /\ 0 < b_size (r_c3 (k_dense s')) /\ 0 < b_size (r_c4 (k_dense s')) /\ 0 < b_size (r_c5 (k_dense s')))).
Proof.
  intros N eps fuel s c s' HN H. destruct c as [y0| |b|p]; cbn [do_call] in H.
  - injection H as H. unfold rk_initial_value in H. apply obind_ok in H. destruct H as (st & H1 & H2). injection H2 as <-. cbn [k_dense].
    split; [|left; reflexivity]. right. unfold initial_value in H1. destruct (k_eqn s) as [f|]; [|discriminate H1].
    exists 0, 0%R, y0, (f 0%R y0). split; [right; reflexivity|exact H1].
  - destruct (rk_step N eps fuel s) as [(o, s1)|] eqn:E; [|discriminate H].
    assert (Es : o <> UB /\ s1 = s') by (destruct o; try discriminate H; injection H as ->; split; congruence). destruct Es as (No & ->). clear H.
    unfold rk_step in E. destruct (k_eqn s) as [f|]; [|injection E as <- _; congruence].
    destruct (last_solution _ _ _) as [y| |]; try (injection E as <- _; congruence).
    destruct (last_derivative _ _ _) as [dy| |]; try (injection E as <- _; congruence).
    destruct (last_time _) as [T| |]; try (injection E as <- _; congruence).
    destruct (try_steps _ _ _ _ _ _ _ _ _) as [([a| |], c')|]; [| | |discriminate E].
    + destruct (store_solution N (k_store s) _ _ _) as [st| |] eqn:Es; try (injection E as <- _; congruence).
      assert (Hs : exists n t y0 yp, (n = s_n (k_store s) \/ n = 0) /\ store_solution N (Storage (s_time (k_store s)) (s_sol (k_store s)) (s_der (k_store s)) n (s_alloc (k_store s))) t y0 yp = Ok st).
      { exists (s_n (k_store s)). do 3 eexists. split; [left; reflexivity|]. destruct (k_store s) as [q1 q2 q3 q4 q5]. exact Es. }
      destruct (k_on s && (1 <? s_n st))%bool.
      * destruct (prepare_dense _ _ _ _ _ _ _ _ _ _) as [r| |] eqn:Ed; try (injection E as <- _; congruence).
        injection E as _ <-. cbn [k_store k_dense]. split; [right; exact Hs|]. right. exact (dense_blocks _ _ _ _ _ _ _ _ _ _ _ HN Ed).
      * injection E as _ <-. cbn [k_store k_dense]. split; [right; exact Hs|left; reflexivity].
    + injection E as _ <-. cbn [k_store k_dense]. split; left; reflexivity.
    + injection E as _ <-. cbn [k_store k_dense]. split; left; reflexivity.
  - injection H as <-. split; left; reflexivity.
  - injection H as <-. split; left; reflexivity.
Qed.
Lemma call_blocks : forall N eps fuel s c s', (1 <= N)%nat -> do_call N eps fuel s c = Some (Ok s') ->
  Forall2 (fun b b' => b' = b \/ 0 < b_size b') (blocks_of s) (blocks_of s').
Proof.
  intros N eps fuel s c s' HN H. destruct (call_stored _ _ _ _ _ _ HN H) as (A & B). unfold blocks_of.
  assert (A' : (s_time (k_store s') = s_time (k_store s) \/ 0 < b_size (s_time (k_store s'))) /\ (s_sol (k_store s') = s_sol (k_store s) \/ 0 < b_size (s_sol (k_store s'))) /\
    (s_der (k_store s') = s_der (k_store s) \/ 0 < b_size (s_der (k_store s')))).
  { destruct A as [A|(n & t & y & yp & _ & A)]; [rewrite A; repeat split; left; reflexivity|].
    destruct (store_blocks _ _ _ _ _ _ HN A) as (X1 & X2 & X3 & _). repeat split; right; assumption. }
  destruct A' as (A1 & A2 & A3).
  repeat (constructor; [first [assumption | destruct B as [B|(B1 & B2 & B3 & B4 & B5)]; [left; rewrite B; reflexivity|right; assumption]]|]). constructor.
Qed.

(** * The heap *)
Definition wf (m : mem) : Prop := forall a, (m_next m <= a)%nat -> m_blk m a = None.
Definition live (m : mem) (p : option nat) : Prop := match p with None => True | Some a => m_blk m a <> None end.
Definition alive (m : mem) (a : nat) : bool := match m_blk m a with Some _ => true | None => false end.
Definition addrs (ps : list (option nat)) : list nat := flat_map (fun p => match p with Some a => [a] | None => [] end) ps.
Lemma in_addrs : forall ps a, In a (addrs ps) <-> In (Some a) ps.
Proof.
  intros ps a. unfold addrs. rewrite in_flat_map. split.
  - intros ([b|] & H & I); [destruct I as [<-|[]]; exact H|destruct I].
  - intro H. exists (Some a). split; [exact H|left; reflexivity].
Qed.
Lemma live_below : forall m a, wf m -> live m (Some a) -> (a < m_next m)%nat.
Proof. intros m a W H. destruct (Nat.lt_ge_cases a (m_next m)) as [L|L]; [exact L|]. exfalso. apply H. apply W. exact L. Qed.

Lemma put_spec : forall m p b, wf m -> live m p -> (at_pointer m p = b \/ 0 < b_size b) ->
  exists m' p', put m p b = Ok (m', p') /\ wf m' /\ at_pointer m' p' = b /\ live m' p' /\ (p' = p \/ p' = Some (m_next m)) /\ (m_next m <= m_next m')%nat /\
    (p' = Some (m_next m) -> (m_next m < m_next m')%nat) /\
    (forall a, (a < m_next m)%nat -> p <> Some a -> m_blk m' a = m_blk m a) /\
    (forall a, p = Some a -> (b_size b = b_size (at_pointer m p) -> p' = p) /\ (b_size b <> b_size (at_pointer m p) -> m_blk m' a = None /\ p' <> p)).
Proof.
  intros m [a|] b W L Hb.
  - unfold put. cbn [live at_pointer] in L, Hb |- *. pose proof (live_below m a W L) as La. destruct (m_blk m a) as [old|] eqn:E; [|congruence]. cbn [b_size].
    destruct (b_size b =? b_size old) eqn:Es.
    + do 2 eexists. split; [reflexivity|]. split; [|split; [|split; [|split; [|split; [|split; [|split]]]]]].
      * intros x Hx. cbn [m_blk m_next] in *. destruct (Nat.eqb x a) eqn:Ex; [apply Nat.eqb_eq in Ex; lia|apply W; exact Hx].
      * cbn [at_pointer m_blk]. rewrite Nat.eqb_refl. reflexivity.
      * cbn [live m_blk]. rewrite Nat.eqb_refl. discriminate.
      * left. reflexivity.
      * cbn [m_next]. lia.
      * intro X. injection X as X. lia.
      * intros x _ Hx. cbn [m_blk]. destruct (Nat.eqb x a) eqn:Ex; [apply Nat.eqb_eq in Ex; congruence|reflexivity].
      * intros x X. injection X as <-. apply Z.eqb_eq in Es. split; [reflexivity|congruence].
    + unfold fresh. cbn [m_blk m_next]. do 2 eexists. split; [reflexivity|]. split; [|split; [|split; [|split; [|split; [|split; [|split]]]]]].
      * intros x Hx. cbn [m_blk m_next] in *. destruct (Nat.eqb x (m_next m)) eqn:E1; [apply Nat.eqb_eq in E1; lia|]. destruct (Nat.eqb x a); [reflexivity|apply W; lia].
      * cbn [at_pointer m_blk]. rewrite Nat.eqb_refl. reflexivity.
      * cbn [live m_blk]. rewrite Nat.eqb_refl. discriminate.
      * right. reflexivity.
      * cbn [m_next]. lia.
      * intros _. cbn [m_next]. lia.
      * intros x Hx Hn. cbn [m_blk]. destruct (Nat.eqb x (m_next m)) eqn:E1; [apply Nat.eqb_eq in E1; lia|]. destruct (Nat.eqb x a) eqn:Ex; [apply Nat.eqb_eq in Ex; congruence|reflexivity].
      * intros x X. injection X as <-. apply Z.eqb_neq in Es. split; [congruence|]. intros _. cbn [m_blk]. destruct (Nat.eqb a (m_next m)) eqn:E1; [apply Nat.eqb_eq in E1; lia|]. rewrite Nat.eqb_refl.
        split; [reflexivity|]. intro X. injection X as X. lia.
  - unfold put. cbn [at_pointer] in Hb. destruct (b_size b =? 0) eqn:Es.
    + apply Z.eqb_eq in Es. exists m, None. split; [reflexivity|]. split; [exact W|]. split; [destruct Hb as [Hb|Hb]; [exact Hb|lia]|].
      split; [exact Logic.I|]. split; [left; reflexivity|]. split; [lia|]. split; [discriminate|]. split; [reflexivity|discriminate].
    + unfold fresh. do 2 eexists. split; [reflexivity|]. split; [|split; [|split; [|split; [|split; [|split; [|split]]]]]].
      * intros x Hx. cbn [m_blk m_next] in *. destruct (Nat.eqb x (m_next m)) eqn:E1; [apply Nat.eqb_eq in E1; lia|]. apply W. lia.
      * cbn [at_pointer m_blk]. rewrite Nat.eqb_refl. reflexivity.
      * cbn [live m_blk]. rewrite Nat.eqb_refl. discriminate.
      * right. reflexivity.
      * cbn [m_next]. lia.
      * intros _. cbn [m_next]. lia.
      * intros x Hx Hn. cbn [m_blk]. destruct (Nat.eqb x (m_next m)) eqn:E1; [apply Nat.eqb_eq in E1; lia|reflexivity].
      * discriminate.
Qed.

Lemma put_all_spec : forall ps bs m, wf m -> Forall (live m) ps -> NoDup (addrs ps) ->
  Forall2 (fun p b => at_pointer m p = b \/ 0 < b_size b) ps bs ->
  exists m' ps', put_all m ps bs = Ok (m', ps') /\ wf m' /\ map (at_pointer m') ps' = bs /\ Forall (live m') ps' /\ NoDup (addrs ps') /\ (m_next m <= m_next m')%nat /\
    length ps' = length ps /\
    (forall a, In a (addrs ps') -> In a (addrs ps) \/ (m_next m <= a)%nat) /\
    (forall a, (a < m_next m)%nat -> ~ In a (addrs ps) -> m_blk m' a = m_blk m a) /\
    (forall i a b, nth_error ps i = Some (Some a) -> nth_error bs i = Some b ->
       (b_size b = b_size (at_pointer m (Some a)) -> nth_error ps' i = Some (Some a)) /\
       (b_size b <> b_size (at_pointer m (Some a)) -> m_blk m' a = None)).
Proof.
  induction ps as [|p ps IH]; intros bs m W L D F.
  - inversion F; subst. exists m, []. cbn [put_all map length addrs flat_map]. split; [reflexivity|]. split; [exact W|]. split; [reflexivity|]. split; [constructor|]. split; [constructor|].
    split; [lia|]. split; [reflexivity|]. split; [intros a []|]. split; [reflexivity|]. intros i a b H. destruct i; discriminate H.
  - destruct bs as [|b bs]; [inversion F|]. assert (F1 : at_pointer m p = b \/ 0 < b_size b) by (inversion F; assumption).
    assert (F2 : Forall2 (fun p b => at_pointer m p = b \/ 0 < b_size b) ps bs) by (inversion F; assumption). clear F.
    assert (L1 : live m p) by (inversion L; assumption). assert (L2 : Forall (live m) ps) by (inversion L; assumption). clear L.
    assert (D2 : NoDup (addrs ps) /\ forall a, p = Some a -> ~ In a (addrs ps)).
    { destruct p as [a|]; cbn [addrs flat_map List.app] in D; [|split; [exact D|discriminate]]. apply NoDup_cons_iff in D. destruct D as (D1 & D2). split; [exact D2|]. intros x X. injection X as <-. exact D1. }
    clear D. destruct D2 as (D2 & D1).
    destruct (put_spec m p b W L1 F1) as (m1 & p1 & E1 & W1 & A1 & L1' & Q1 & N1 & N1' & U1 & G1).
    assert (Keep : forall q, In q ps -> at_pointer m1 q = at_pointer m q /\ live m1 q).
    { intros [a|] Hq; [|split; [reflexivity|exact Logic.I]]. rewrite Forall_forall in L2. pose proof (L2 _ Hq) as La. pose proof (live_below m a W La) as Lt.
      assert (p <> Some a) by (intro X; apply (D1 a X); apply in_addrs; exact Hq). pose proof (U1 a Lt H) as Eq. split; [cbn [at_pointer]; rewrite Eq; reflexivity|cbn [live]; rewrite Eq; exact La]. }
    destruct (IH bs m1 W1) as (m2 & ps2 & E2 & W2 & A2 & L2' & D2' & N2 & Len & I2 & U2 & G2).
    { apply Forall_forall. intros q Hq. apply (Keep q Hq). }
    { exact D2. }
    { clear - F2 Keep. induction F2 as [|q c ps bs H F IH]; constructor.
      - rewrite (proj1 (Keep q (or_introl eq_refl))). exact H.
      - apply IH. intros q' Hq'. apply Keep. right. exact Hq'. }
    assert (Lp : forall a, p1 = Some a -> (a < m_next m1)%nat /\ ~ In a (addrs ps)).
    { intros a ->. split; [exact (live_below m1 a W1 L1')|]. destruct Q1 as [Q1|Q1]; [apply D1; congruence|].
      injection Q1 as Q1. subst a. intro H. apply in_addrs in H. rewrite Forall_forall in L2. pose proof (live_below m _ W (L2 _ H)). lia. }
    exists m2, (p1 :: ps2). cbn [put_all]. rewrite E1. cbn [obind fst snd]. rewrite E2. cbn [obind fst snd].
    split; [reflexivity|]. split; [exact W2|]. split; [|split; [|split; [|split; [|split; [|split; [|split]]]]]].
    + cbn [map]. rewrite A2. f_equal. rewrite <- A1. destruct p1 as [a|]; [|reflexivity]. destruct (Lp a eq_refl) as (X1 & X2). cbn [at_pointer]. rewrite (U2 a X1 X2). reflexivity.
    + constructor; [|exact L2']. destruct p1 as [a|]; [|exact Logic.I]. destruct (Lp a eq_refl) as (X1 & X2). cbn [live] in *. rewrite (U2 a X1 X2). exact L1'.
    + destruct p1 as [a|]; cbn [addrs flat_map List.app]; [|exact D2']. constructor; [|exact D2']. destruct (Lp a eq_refl) as (X1 & X2). intro H. destruct (I2 a H) as [H1|H1]; [exact (X2 H1)|lia].
    + lia.
    + cbn [length]. rewrite Len. reflexivity.
    + intros a H. assert (Hs : p1 = Some a \/ In a (addrs ps2)).
      { destruct p1 as [x|]; cbn [addrs flat_map List.app] in H; [destruct H as [<-|H]; [left; reflexivity|right; exact H]|right; exact H]. }
      destruct Hs as [Hs|Hs].
      * destruct Q1 as [Q1|Q1]; [left; apply in_addrs; left; congruence|right; rewrite Hs in Q1; injection Q1 as ->; lia].
      * destruct (I2 a Hs) as [Hi|Hi]; [left; apply in_addrs; right; apply in_addrs; exact Hi|right; lia].
    + intros a La Hn. assert (p <> Some a) by (intro X; apply Hn; apply in_addrs; left; exact X).
      rewrite <- (U1 a La H). apply U2; [lia|]. intro X. apply Hn. apply in_addrs. right. apply in_addrs. exact X.
    + intros [|i] a c Hi Hc; cbn [nth_error] in Hi, Hc |- *.
      * injection Hi as ->. injection Hc as <-. destruct (G1 a eq_refl) as (X1 & X2). split; [intro X; rewrite (X1 X); reflexivity|]. intro X. destruct (X2 X) as (Y1 & Y2).
        pose proof (live_below m a W L1) as La. rewrite (U2 a); [exact Y1|lia|]. apply D1. reflexivity.
      * pose proof (nth_error_In _ _ Hi) as Hin. destruct (Keep _ Hin) as (K1 & _). rewrite <- K1. exact (G2 i a c Hi Hc).
Qed.

(** * Programs *)
Definition ptrs (o : option obj) : list (option nat) := match o with Some o => o_ptr o | None => [] end.
Definition all_ptrs (os : list (option obj)) : list (option nat) := flat_map ptrs os.
Record sep (p : prog) : Prop := Sep
  { sep_wf : wf (p_mem p); sep_live : Forall (live (p_mem p)) (all_ptrs (p_obj p)); sep_nodup : NoDup (addrs (all_ptrs (p_obj p)));
    sep_eight : forall o, In (Some o) (p_obj p) -> length (o_ptr o) = 8%nat }.

Lemma set_at_split : forall (A : Type) (l1 l2 : list A) x y, set_at (l1 ++ x :: l2) (length l1) y = l1 ++ y :: l2.
Proof.
  intros A l1 l2 x y. unfold set_at. rewrite firstn_app, Nat.sub_diag, firstn_all, firstn_O, app_nil_r.
  rewrite (skipn_app (S (length l1))), (skipn_all2 l1) by lia. replace (S (length l1) - length l1)%nat with 1%nat by lia. reflexivity.
Qed.
Lemma nth_set_at : forall (A : Type) (l : list A) k x j y, nth_error l k = Some x -> nth_error (set_at l k y) j = if Nat.eqb j k then Some y else nth_error l j.
Proof.
  intros A l k x j y H. apply nth_error_split in H. destruct H as (l1 & l2 & -> & <-). rewrite set_at_split.
  destruct (Nat.eqb j (length l1)) eqn:E.
  - apply Nat.eqb_eq in E. subst j. rewrite nth_error_app2, Nat.sub_diag by lia. reflexivity.
  - apply Nat.eqb_neq in E. destruct (Nat.lt_ge_cases j (length l1)) as [L|L].
    + rewrite !nth_error_app1 by lia. reflexivity.
    + rewrite !nth_error_app2 by lia. destruct (j - length l1)%nat eqn:Q; [lia|reflexivity].
Qed.
Lemma addrs_app : forall a b, addrs (a ++ b) = addrs a ++ addrs b.
Proof. intros a b. unfold addrs. apply flat_map_app. Qed.
Lemma all_ptrs_app : forall a b, all_ptrs (a ++ b) = all_ptrs a ++ all_ptrs b.
Proof. intros a b. unfold all_ptrs. apply flat_map_app. Qed.
Lemma load_length : forall m ps, length (map (at_pointer m) ps) = length ps. Proof. intros m ps. apply map_length. Qed.
Lemma blocks_load : forall m o, length (o_ptr o) = 8%nat -> blocks_of (load m o) = map (at_pointer m) (o_ptr o).
Proof.
  intros m [ps r] H. cbn [o_ptr] in H. do 8 (destruct ps as [|? ps]; [discriminate H|]). destruct ps; [reflexivity|discriminate H].
Qed.
Lemma load_same : forall m m' o, (forall a, In (Some a) (o_ptr o) -> m_blk m' a = m_blk m a) -> load m' o = load m o.
Proof.
  intros m m' o H. unfold load. f_equal. apply map_ext_in. intros [a|] Hin; [|reflexivity]. cbn [at_pointer]. rewrite (H a Hin). reflexivity.
Qed.
Lemma nodup_app_intro : forall (l1 l2 : list nat), NoDup l1 -> NoDup l2 -> (forall a, In a l1 -> ~ In a l2) -> NoDup (l1 ++ l2).
Proof.
  induction l1 as [|x l1 IH]; intros l2 H1 H2 H; [exact H2|]. apply NoDup_cons_iff in H1. destruct H1 as (N1 & H1). cbn [List.app]. constructor.
  - intro Q. apply in_app_iff in Q. destruct Q as [Q|Q]; [exact (N1 Q)|exact (H x (or_introl eq_refl) Q)].
  - apply IH; [exact H1|exact H2|]. intros a Ha. apply H. right. exact Ha.
Qed.
Lemma nodup_app_elim : forall (l1 l2 : list nat), NoDup (l1 ++ l2) -> NoDup l1 /\ NoDup l2 /\ (forall a, In a l1 -> ~ In a l2).
Proof.
  induction l1 as [|x l1 IH]; intros l2 H; cbn [List.app] in H; [split; [constructor|split; [exact H|intros a []]]|].
  apply NoDup_cons_iff in H. destruct H as (N1 & H). destruct (IH l2 H) as (A & B & C). split; [|split; [exact B|]].
  - constructor; [|exact A]. intro Q. apply N1, in_app_iff. left. exact Q.
  - intros a [<-|Ha] Q; [apply N1, in_app_iff; right; exact Q|exact (C a Ha Q)].
Qed.

(** A call on one object of a program in which no two pointers are equal. *)
Lemma call_step : forall N eps fuel p l1 o l2 c s', (1 <= N)%nat -> sep p -> p_obj p = l1 ++ Some o :: l2 -> do_call N eps fuel (load (p_mem p) o) c = Some (Ok s') ->
  exists m ps, put_all (p_mem p) (o_ptr o) (blocks_of s') = Ok (m, ps) /\ sep (Prog m (l1 ++ Some (Obj ps (rest s')) :: l2)) /\
    map (option_map (load m)) (l1 ++ Some (Obj ps (rest s')) :: l2) = map (option_map (load (p_mem p))) l1 ++ Some s' :: map (option_map (load (p_mem p))) l2 /\
    (m_next (p_mem p) <= m_next m)%nat /\
    (forall a, (a < m_next (p_mem p))%nat -> ~ In (Some a) (o_ptr o) -> m_blk m a = m_blk (p_mem p) a) /\
    (forall i a b, nth_error (o_ptr o) i = Some (Some a) -> nth_error (blocks_of s') i = Some b ->
       (b_size b = b_size (at_pointer (p_mem p) (Some a)) -> nth_error ps i = Some (Some a)) /\
       (b_size b <> b_size (at_pointer (p_mem p) (Some a)) -> m_blk m a = None)).
Proof.
  intros N eps fuel p l1 o l2 c s' HN [W L D E8] Ep Hc.
  assert (E8o : length (o_ptr o) = 8%nat) by (apply E8; rewrite Ep; apply in_app_iff; right; left; reflexivity).
  rewrite Ep in L, D. rewrite all_ptrs_app in L, D. cbn [all_ptrs flat_map ptrs] in L, D. fold all_ptrs in L, D. rewrite !addrs_app in D.
  apply Forall_app in L. destruct L as (L1 & L). apply Forall_app in L. destruct L as (Lo & L2).
  apply nodup_app_elim in D. destruct D as (D1 & D & X1). apply nodup_app_elim in D. destruct D as (Do & D2 & X2).
  assert (F : Forall2 (fun q b => at_pointer (p_mem p) q = b \/ 0 < b_size b) (o_ptr o) (blocks_of s')).
  { pose proof (call_blocks _ _ _ _ _ _ HN Hc) as B. rewrite (blocks_load _ _ E8o) in B. revert B. generalize (blocks_of s'). clear. induction (o_ptr o) as [|q qs IH]; intros bs B.
    - inversion B; subst. constructor.
    - destruct bs as [|b bs]; [inversion B|]. cbn [map] in B. constructor; [|apply IH; inversion B; assumption]. assert (Q : b = at_pointer (p_mem p) q \/ 0 < b_size b) by (inversion B; assumption). destruct Q as [->|Q]; [left; reflexivity|right; exact Q]. }
  destruct (put_all_spec _ _ _ W Lo Do F) as (m & ps & Ea & W' & Am & L' & D' & Nx & Len & I' & U' & G').
  exists m, ps. split; [exact Ea|].
  assert (Keep : forall q, In q (all_ptrs l1) \/ In q (all_ptrs l2) -> match q with Some a => m_blk m a = m_blk (p_mem p) a /\ (a < m_next (p_mem p))%nat | None => True end).
  { intros [a|] Hq; [|exact Logic.I]. assert (La : live (p_mem p) (Some a)) by (destruct Hq as [Hq|Hq]; [rewrite Forall_forall in L1; exact (L1 _ Hq)|rewrite Forall_forall in L2; exact (L2 _ Hq)]).
    pose proof (live_below _ _ W La) as Lt. split; [|exact Lt]. apply U'; [exact Lt|]. intro Q. destruct Hq as [Hq|Hq]; apply in_addrs in Hq.
    - apply (X1 a Hq). apply in_app_iff. left. exact Q.
    - exact (X2 a Q Hq). }
  assert (Liv : forall q, In q (all_ptrs l1) \/ In q (all_ptrs l2) -> live m q).
  { intros [a|] Hq; [|exact Logic.I]. pose proof (Keep _ Hq) as (K & _). cbn [live]. rewrite K. destruct Hq as [Hq|Hq]; [rewrite Forall_forall in L1; exact (L1 _ Hq)|rewrite Forall_forall in L2; exact (L2 _ Hq)]. }
  split; [|split; [|split; [exact Nx|split]]].
  - constructor; cbn [p_mem p_obj].
    + exact W'.
    + rewrite all_ptrs_app. cbn [all_ptrs flat_map ptrs o_ptr]. fold all_ptrs. apply Forall_app. split; [apply Forall_forall; intros q Hq; apply Liv; left; exact Hq|].
      apply Forall_app. split; [exact L'|]. apply Forall_forall; intros q Hq; apply Liv; right; exact Hq.
    + rewrite all_ptrs_app. cbn [all_ptrs flat_map ptrs o_ptr]. fold all_ptrs. rewrite !addrs_app. apply nodup_app_intro; [exact D1|apply nodup_app_intro; [exact D'|exact D2|]|].
      * intros a Ha Hb. destruct (I' a Ha) as [H|H]; [exact (X2 a H Hb)|]. apply in_addrs in Hb. pose proof (Keep _ (or_intror Hb)) as (_ & Q). lia.
      * intros a Ha Hb. apply in_app_iff in Hb. destruct Hb as [Hb|Hb].
        -- destruct (I' a Hb) as [H|H]; [apply (X1 a Ha); apply in_app_iff; left; exact H|]. apply in_addrs in Ha. pose proof (Keep _ (or_introl Ha)) as (_ & Q). lia.
        -- apply (X1 a Ha). apply in_app_iff. right. exact Hb.
    + intros o' Ho'. apply in_app_iff in Ho'. destruct Ho' as [Ho'|[Ho'|Ho']].
      * apply E8. rewrite Ep. apply in_app_iff. left. exact Ho'.
      * injection Ho' as <-. cbn [o_ptr]. lia.
      * apply E8. rewrite Ep. apply in_app_iff. right. right. exact Ho'.
  - assert (Same : forall l, (forall q, In q (all_ptrs l) -> In q (all_ptrs l1) \/ In q (all_ptrs l2)) -> map (option_map (load m)) l = map (option_map (load (p_mem p))) l).
    { intros l Hl. apply map_ext_in. intros [o'|] Ho'; [|reflexivity]. cbn [option_map]. f_equal. apply load_same. intros a Ha.
      assert (Hq : In (Some a) (all_ptrs l)) by (unfold all_ptrs; apply in_flat_map; exists (Some o'); split; [exact Ho'|exact Ha]).
      exact (proj1 (Keep _ (Hl _ Hq))). }
    rewrite map_app. cbn [map option_map]. rewrite (Same l1) by (intros q Hq; left; exact Hq). rewrite (Same l2) by (intros q Hq; right; exact Hq).
    f_equal. f_equal. f_equal. unfold load. cbn [o_ptr o_rest]. rewrite Am. apply with_rest.
  - intros a La Hn. apply U'; [exact La|]. intro Q. apply Hn. apply in_addrs. exact Q.
  - exact G'.
Qed.

Lemma seen_nth : forall p k, nth_error (seen p) k = match nth_error (p_obj p) k with Some x => Some (option_map (load (p_mem p)) x) | None => None end.
Proof. intros p k. unfold seen. rewrite nth_error_map. destruct (nth_error (p_obj p) k); reflexivity. Qed.

(** One call of a program without copies. *)
Lemma ocall_step : forall N eps fuel p c, (1 <= N)%nat -> sep p -> (forall k, c <> OCopy k) ->
  match do_vcall N eps fuel (seen p) c with
  | None => do_ocall N eps fuel p c = None
  | Some Throw => do_ocall N eps fuel p c = Some Throw
  | Some UB => do_ocall N eps fuel p c = Some UB
  | Some (Ok l) => exists p', do_ocall N eps fuel p c = Some (Ok p') /\ sep p' /\ seen p' = l
  end.
Proof.
  intros N eps fuel p c HN Hs Hc. destruct c as [tol f|k|k|k c].
  - cbn [do_vcall do_ocall]. eexists. split; [reflexivity|]. destruct Hs as [W L D E8]. split.
    + constructor; cbn [p_mem p_obj].
      * exact W.
      * rewrite all_ptrs_app. apply Forall_app. split; [exact L|]. cbn. repeat constructor.
      * rewrite all_ptrs_app, addrs_app. cbn. rewrite app_nil_r. exact D.
      * intros o Ho. apply in_app_iff in Ho. destruct Ho as [Ho|[Ho|[]]]; [exact (E8 o Ho)|]. injection Ho as <-. reflexivity.
    + unfold seen. cbn [p_mem p_obj]. rewrite map_app. reflexivity.
  - exfalso. exact (Hc k eq_refl).
  - cbn [do_vcall do_ocall]. rewrite seen_nth. destruct (nth_error (p_obj p) k) as [[o|]|] eqn:E; cbn [option_map]; try reflexivity.
    eexists. split; [reflexivity|]. pose proof E as E'. apply nth_error_split in E'. destruct E' as (l1 & l2 & Ep & <-). destruct Hs as [W L D E8]. rewrite Ep in *. rewrite set_at_split.
    rewrite all_ptrs_app in L, D. cbn [all_ptrs flat_map ptrs] in L, D. fold all_ptrs in L, D. rewrite !addrs_app in D.
    apply Forall_app in L. destruct L as (L1 & L). apply Forall_app in L. destruct L as (Lo & L2).
    apply nodup_app_elim in D. destruct D as (D1 & D & X1). apply nodup_app_elim in D. destruct D as (Do & D2 & X2). split.
    + constructor; cbn [p_mem p_obj].
      * exact W.
      * rewrite all_ptrs_app. cbn [all_ptrs flat_map ptrs List.app]. fold all_ptrs. apply Forall_app. split; assumption.
      * rewrite all_ptrs_app. cbn [all_ptrs flat_map ptrs List.app]. fold all_ptrs. rewrite addrs_app. apply nodup_app_intro; [exact D1|exact D2|]. intros a Ha Hb. apply (X1 a Ha). apply in_app_iff. right. exact Hb.
      * intros o' Ho'. apply E8. apply in_app_iff in Ho'. apply in_app_iff. destruct Ho' as [Ho'|[Ho'|Ho']]; [left; exact Ho'|discriminate Ho'|right; right; exact Ho'].
    + unfold seen. cbn [p_mem p_obj]. rewrite Ep. rewrite !map_app. cbn [map option_map]. rewrite <- (map_length (option_map (load (p_mem p))) l1). rewrite set_at_split. reflexivity.
  - cbn [do_vcall do_ocall]. rewrite seen_nth. destruct (nth_error (p_obj p) k) as [[o|]|] eqn:E; cbn [option_map]; try reflexivity.
    destruct (do_call N eps fuel (load (p_mem p) o) c) as [[s'| |]|] eqn:Ec; try reflexivity.
    apply nth_error_split in E. destruct E as (l1 & l2 & Ep & <-).
    destruct (call_step N eps fuel p l1 o l2 c s' HN Hs Ep Ec) as (m & ps & Ea & S' & V & _). rewrite Ea. eexists. split; [reflexivity|]. rewrite Ep, set_at_split. split; [exact S'|].
    unfold seen. cbn [p_mem p_obj]. rewrite V. rewrite Ep, map_app. cbn [map option_map]. rewrite <- (map_length (option_map (load (p_mem p))) l1) at 1. rewrite set_at_split. reflexivity.
Qed.
Lemma sep_no_prog : sep no_prog.
Proof. constructor; cbn; [intros a _; reflexivity|constructor|constructor|intros o []]. Qed.

Lemma ocalls_run : forall N eps fuel cs p, (1 <= N)%nat -> sep p -> copy_free cs ->
  match do_vcalls N eps fuel (seen p) cs with
  | None => do_ocalls N eps fuel p cs = None
  | Some Throw => do_ocalls N eps fuel p cs = Some Throw
  | Some UB => do_ocalls N eps fuel p cs = Some UB
  | Some (Ok l) => exists p', do_ocalls N eps fuel p cs = Some (Ok p') /\ sep p' /\ seen p' = l
  end.
Proof.
  intros N eps fuel cs. induction cs as [|c cs IH]; intros p HN Hs Hf.
  - cbn [do_vcalls do_ocalls]. exists p. split; [reflexivity|]. split; [exact Hs|reflexivity].
  - cbn [do_vcalls do_ocalls]. pose proof (ocall_step N eps fuel p c HN Hs (fun k X => Hf k (or_introl X))) as Q.
    destruct (do_vcall N eps fuel (seen p) c) as [[l| |]|].
    + destruct Q as (p' & -> & S' & <-). apply IH; [exact HN|exact S'|]. intros k Hk. apply (Hf k). right. exact Hk.
    + rewrite Q. reflexivity.
    + rewrite Q. reflexivity.
    + rewrite Q. reflexivity.
Qed.
Lemma reached_sep : forall N eps fuel cs p p', (1 <= N)%nat -> sep p -> copy_free cs -> do_ocalls N eps fuel p cs = Some (Ok p') -> sep p'.
Proof.
  intros N eps fuel cs p p' HN Hs Hf H. pose proof (ocalls_run N eps fuel cs p HN Hs Hf) as Q.
  destruct (do_vcalls N eps fuel (seen p) cs) as [[l| |]|]; [|congruence|congruence|congruence]. destruct Q as (p2 & E & S' & _). congruence.
Qed.

(** * Pointers into the arrays *)
(** [c] calls have been made so far: the number of points and the capacity are bounded, and
    the array of the solution has the size that belongs to the capacity. *)
Definition bounded (N : nat) (c : Z) (s : rk) : Prop :=
  0 <= s_n (k_store s) <= c /\ s_n (k_store s) <= s_alloc (k_store s) <= c + 999 /\ b_size (s_sol (k_store s)) = Z.of_nat N * s_alloc (k_store s) /\ exists q, s_alloc (k_store s) = 1000 * q.
Lemma bounded_new : forall N tol f, bounded N 0 (set_equation (new_rk tol) f).
Proof. intros N tol f. unfold bounded. cbn. repeat split; try lia. exists 0. reflexivity. Qed.
Lemma bounded_more : forall N c c' s, bounded N c s -> c <= c' -> bounded N c' s.
Proof. intros N c c' s (A & B & C) H. unfold bounded. split; [lia|]. split; [lia|exact C]. Qed.
Lemma call_bounded : forall N eps fuel s c s' n, (1 <= N)%nat -> n + 2000 < 2 ^ 32 -> bounded N n s -> do_call N eps fuel s c = Some (Ok s') ->
  bounded N (n + 1) s' /\ (s_alloc (k_store s') = s_alloc (k_store s) \/ s_alloc (k_store s') = s_alloc (k_store s) + 1000).
Proof.
  intros N eps fuel s c s' n HN Hn (B1 & B2 & B3 & q0 & B4) Hc. destruct (call_stored _ _ _ _ _ _ HN Hc) as ([A|(q & t & y & yp & Hq & A)] & _).
  - unfold bounded. rewrite A. split; [|left; reflexivity]. split; [lia|]. split; [lia|]. split; [exact B3|exists q0; exact B4].
  - apply (store_blocks _ _ _ _ _ _ HN) in A. cbn [s_n s_alloc s_time s_sol] in A. destruct A as (_ & _ & _ & En & A).
    assert (Eq : w32 (q + 1) = q + 1) by (unfold w32; apply Z.mod_small; lia). rewrite Eq in En. unfold bounded. rewrite En.
    destruct A as [(L & Ea & _ & Es)|(L & Ea & _ & Es)]; rewrite Ea.
    + assert (w32 (s_alloc (k_store s) + 1000) = s_alloc (k_store s) + 1000) by (unfold w32; apply Z.mod_small; lia). rewrite Es, Ea, H. split; [|right; reflexivity]. repeat split; try lia. exists (q0 + 1). lia.
    + rewrite Es. split; [|left; reflexivity]. repeat split; try lia. exists q0. exact B4.
Qed.

(** The bounds hold for every object of a program. *)
Definition all_bounded (N : nat) (c : Z) (l : list (option rk)) : Prop := forall k s, nth_error l k = Some (Some s) -> bounded N c s.
Lemma vcall_bounded : forall N eps fuel l c l' n, (1 <= N)%nat -> 0 <= n -> n + 2000 < 2 ^ 32 -> (forall k, c <> OCopy k) -> all_bounded N n l -> do_vcall N eps fuel l c = Some (Ok l') ->
  all_bounded N (n + 1) l' /\ forall k s s', nth_error l k = Some (Some s) -> nth_error l' k = Some (Some s') ->
    s_alloc (k_store s') = s_alloc (k_store s) \/ s_alloc (k_store s') = s_alloc (k_store s) + 1000.
Proof.
  intros N eps fuel l c l' n HN H0 Hn Hc Hb H. destruct c as [tol f|k|k|k c]; cbn [do_vcall] in H.
  - injection H as <-. split.
    + intros k s Hk. destruct (Nat.lt_ge_cases k (length l)) as [L|L].
      * rewrite nth_error_app1 in Hk by exact L. apply (bounded_more N n); [exact (Hb k s Hk)|lia].
      * rewrite nth_error_app2 in Hk by exact L. destruct (k - length l)%nat as [|i]; cbn [nth_error] in Hk; [|destruct i; discriminate Hk].
        injection Hk as <-. apply (bounded_more N 0); [apply bounded_new|lia].
    + intros k s s' H1 H2. assert (L : (k < length l)%nat) by (apply nth_error_Some; congruence). rewrite nth_error_app1 in H2 by exact L. left. congruence.
  - exfalso. exact (Hc k eq_refl).
  - destruct (nth_error l k) as [[o|]|] eqn:E; try discriminate H. injection H as <-. split.
    + intros j s Hj. rewrite (nth_set_at _ _ _ _ _ _ E) in Hj. destruct (Nat.eqb j k); [discriminate Hj|]. apply (bounded_more N n); [exact (Hb j s Hj)|lia].
    + intros j s s' H1 H2. rewrite (nth_set_at _ _ _ _ _ _ E) in H2. destruct (Nat.eqb j k); [discriminate H2|]. left. congruence.
  - destruct (nth_error l k) as [[o|]|] eqn:E; try discriminate H. destruct (do_call N eps fuel o c) as [[s1| |]|] eqn:Ec; try discriminate H. injection H as <-.
    destruct (call_bounded _ _ _ _ _ _ n HN Hn (Hb k o E) Ec) as (B1 & B2). split.
    + intros j s Hj. rewrite (nth_set_at _ _ _ _ _ _ E) in Hj. destruct (Nat.eqb j k); [injection Hj as <-; exact B1|]. apply (bounded_more N n); [exact (Hb j s Hj)|lia].
    + intros j s s' H1 H2. rewrite (nth_set_at _ _ _ _ _ _ E) in H2. destruct (Nat.eqb j k) eqn:Ej; [|left; congruence].
      apply Nat.eqb_eq in Ej. subst j. injection H2 as <-. assert (o = s) by congruence. subst o. exact B2.
Qed.

Lemma object_seen : forall p k o, object p k o -> nth_error (seen p) k = Some (Some (load (p_mem p) o)).
Proof. intros p k o H. rewrite seen_nth. unfold object in H. rewrite H. reflexivity. Qed.
Lemma second_block : forall s, nth_error (blocks_of s) 1 = Some (s_sol (k_store s)). Proof. reflexivity. Qed.
Lemma load_sol : forall m o a, nth 1 (o_ptr o) None = Some a -> s_sol (k_store (load m o)) = at_pointer m (Some a).
Proof.
  intros m [ps r] a H. unfold load, with_blocks. cbn [o_ptr o_rest k_store s_sol] in *. destruct ps as [|p0 [|p1 ps]]; cbn [nth map] in *; [discriminate H|discriminate H|subst p1; reflexivity].
Qed.
Lemma nth_second : forall (ps : list (option nat)) a, nth 1 ps None = Some a <-> nth_error ps 1 = Some (Some a).
Proof. intros [|p0 [|p1 ps]] a; cbn; split; intro H; congruence. Qed.

(** One call: the array of the solution stays where it is exactly if the capacity does not change. *)
Lemma pointer_step : forall N eps fuel p c p' n k o o' a, (1 <= N)%nat -> 0 <= n -> n + 2000 < 2 ^ 32 -> (forall k, c <> OCopy k) -> sep p -> all_bounded N n (seen p) ->
  do_ocall N eps fuel p c = Some (Ok p') -> object p k o -> object p' k o' -> nth 1 (o_ptr o) None = Some a ->
  let al := s_alloc (k_store (load (p_mem p) o)) in let al' := s_alloc (k_store (load (p_mem p') o')) in
  (al' = al /\ nth 1 (o_ptr o') None = Some a) \/ (al < al' /\ m_blk (p_mem p') a = None /\ (a < m_next (p_mem p'))%nat).
Proof.
  intros N eps fuel p c p' n k o o' a HN H0 Hn Hc Hs Hb H Ho Ho' Ha al al'.
  assert (La : (a < m_next (p_mem p))%nat).
  { apply live_below; [exact (sep_wf _ Hs)|]. pose proof (sep_live _ Hs) as L. rewrite Forall_forall in L. apply L. unfold all_ptrs. apply in_flat_map. exists (Some o).
    split; [exact (nth_error_In _ _ Ho)|]. apply nth_second in Ha. exact (nth_error_In _ _ Ha). }
  assert (Same : p_mem p' = p_mem p -> o' = o -> (al' = al /\ nth 1 (o_ptr o') None = Some a) \/ (al < al' /\ m_blk (p_mem p') a = None /\ (a < m_next (p_mem p'))%nat)).
  { intros E1 E2. left. unfold al', al. rewrite E1, E2. split; [reflexivity|exact Ha]. }
  unfold object in Ho, Ho'. destruct c as [tol f|j|j|j c]; cbn [do_ocall] in H.
  - injection H as <-. cbn [p_obj p_mem] in *. apply Same; [reflexivity|]. rewrite nth_error_app1 in Ho' by (apply nth_error_Some; congruence). congruence.
  - exfalso. exact (Hc j eq_refl).
  - destruct (nth_error (p_obj p) j) as [[q|]|] eqn:E; try discriminate H. injection H as <-. cbn [p_obj p_mem] in *. apply Same; [reflexivity|].
    rewrite (nth_set_at _ _ _ _ _ _ E) in Ho'. destruct (Nat.eqb k j); congruence.
  - destruct (nth_error (p_obj p) j) as [[q|]|] eqn:E; try discriminate H.
    destruct (do_call N eps fuel (load (p_mem p) q) c) as [[s'| |]|] eqn:Ec; try discriminate H.
    pose proof E as E'. apply nth_error_split in E'. destruct E' as (l1 & l2 & Ep & Ej).
    destruct (call_step N eps fuel p l1 q l2 c s' HN Hs Ep Ec) as (m & ps & Ea & S' & V & Nx & U & G). rewrite Ea in H. injection H as <-. cbn [p_obj p_mem] in *.
    rewrite (nth_set_at _ _ _ _ _ _ E) in Ho'. destruct (Nat.eqb k j) eqn:Ekj.
    + apply Nat.eqb_eq in Ekj. subst k. injection Ho' as <-. assert (q = o) by congruence. subst q.
      assert (Ls : load m (Obj ps (rest s')) = s').
      { rewrite map_app in V. cbn [map option_map] in V. apply (f_equal (fun l => nth_error l (length l1))) in V.
        rewrite !nth_error_app2 in V by (rewrite map_length; lia). rewrite !map_length, Nat.sub_diag in V. cbn [nth_error] in V. congruence. }
      unfold al', al. rewrite Ls. cbn [o_ptr].
      pose proof (Hb j _ (object_seen p j o Ho)) as Hbo. destruct (call_bounded _ _ _ _ _ _ n HN Hn Hbo Ec) as (B' & B2).
      destruct Hbo as (_ & _ & Z1 & _). destruct B' as (_ & _ & Z2 & _).
      pose proof Ha as Ha'. apply nth_second in Ha'. destruct (G 1%nat a _ Ha' (second_block s')) as (G1 & G2). rewrite <- (load_sol (p_mem p) o a Ha) in G1, G2.
      rewrite Z1, Z2 in G1, G2. destruct B2 as [B2|B2].
      * left. split; [exact B2|]. apply nth_second. apply G1. rewrite B2. reflexivity.
      * right. split; [lia|]. split; [|lia]. apply G2. rewrite B2. intro X. apply Z.mul_reg_l in X; lia.
    + assert (o' = o) by congruence. subst o'. left. split; [|exact Ha]. unfold al', al.
      rewrite map_app in V. cbn [map option_map] in V. assert (Ek : load m o = load (p_mem p) o); [|rewrite Ek; reflexivity].
      apply Nat.eqb_neq in Ekj. rewrite Ep in Ho. apply (f_equal (fun l => nth_error l k)) in V. destruct (Nat.lt_ge_cases k (length l1)) as [L|L].
      * rewrite nth_error_app1 in Ho by exact L. rewrite !nth_error_app1 in V by (rewrite map_length; exact L). rewrite !nth_error_map, Ho in V. cbn [option_map] in V. congruence.
      * rewrite nth_error_app2 in Ho by exact L. rewrite !nth_error_app2 in V by (rewrite map_length; exact L). rewrite !map_length in V. destruct (k - length l1)%nat as [|i] eqn:Q; [lia|].
        cbn [nth_error] in Ho, V. rewrite !nth_error_map, Ho in V. cbn [option_map] in V. congruence.
Qed.

(** Freed memory stays freed. *)
Lemma ocall_freed : forall N eps fuel p c p' a, (1 <= N)%nat -> (forall k, c <> OCopy k) -> sep p -> do_ocall N eps fuel p c = Some (Ok p') ->
  m_blk (p_mem p) a = None -> (a < m_next (p_mem p))%nat -> m_blk (p_mem p') a = None /\ (a < m_next (p_mem p'))%nat.
Proof.
  intros N eps fuel p c p' a HN Hc Hs H Ha La. destruct c as [tol f|j|j|j c]; cbn [do_ocall] in H.
  - injection H as <-. split; assumption.
  - exfalso. exact (Hc j eq_refl).
  - destruct (nth_error (p_obj p) j) as [[q|]|] eqn:E; try discriminate H. injection H as <-. split; assumption.
  - destruct (nth_error (p_obj p) j) as [[q|]|] eqn:E; try discriminate H.
    destruct (do_call N eps fuel (load (p_mem p) q) c) as [[s'| |]|] eqn:Ec; try discriminate H.
    pose proof E as E'. apply nth_error_split in E'. destruct E' as (l1 & l2 & Ep & Ej).
    destruct (call_step N eps fuel p l1 q l2 c s' HN Hs Ep Ec) as (m & ps & Ea & S' & V & Nx & U & G). rewrite Ea in H. injection H as <-. cbn [p_mem]. split; [|lia].
    rewrite U; [exact Ha|exact La|]. intro Q. pose proof (sep_live _ Hs) as L. rewrite Forall_forall in L.
    apply (L (Some a)); [|exact Ha]. unfold all_ptrs. apply in_flat_map. exists (Some q). split; [exact (nth_error_In _ _ E)|exact Q].
Qed.
Lemma ocall_facts : forall N eps fuel p c p' n, (1 <= N)%nat -> 0 <= n -> n + 2000 < 2 ^ 32 -> (forall k, c <> OCopy k) -> sep p -> all_bounded N n (seen p) -> do_ocall N eps fuel p c = Some (Ok p') ->
  sep p' /\ all_bounded N (n + 1) (seen p') /\ do_vcall N eps fuel (seen p) c = Some (Ok (seen p')).
Proof.
  intros N eps fuel p c p' n HN H0 Hn Hc Hs Hb H. pose proof (ocall_step N eps fuel p c HN Hs Hc) as Q.
  destruct (do_vcall N eps fuel (seen p) c) as [[l| |]|] eqn:E; [|congruence|congruence|congruence]. destruct Q as (p2 & E2 & S2 & E3). assert (p2 = p') by congruence. subst p2.
  split; [exact S2|]. rewrite E3. split; [|reflexivity]. exact (proj1 (vcall_bounded _ _ _ _ _ _ _ HN H0 Hn Hc Hb E)).
Qed.
(** An object that is there at the end was there all the time. *)
Lemma ocall_back : forall N eps fuel p c p' k o, do_ocall N eps fuel p c = Some (Ok p') -> object p k o -> (exists q, nth_error (p_obj p') k = Some (Some q)) \/ nth_error (p_obj p') k = Some None.
Proof.
  intros N eps fuel p c p' k o H Ho. unfold object in Ho. destruct c as [tol f|j|j|j c]; cbn [do_ocall] in H.
  - injection H as <-. cbn [p_obj]. rewrite nth_error_app1 by (apply nth_error_Some; congruence). left. exists o. exact Ho.
  - destruct (nth_error (p_obj p) j) as [[q|]|] eqn:E; try discriminate H. injection H as <-. cbn [p_obj]. rewrite nth_error_app1 by (apply nth_error_Some; congruence). left. exists o. exact Ho.
  - destruct (nth_error (p_obj p) j) as [[q|]|] eqn:E; try discriminate H. injection H as <-. cbn [p_obj]. rewrite (nth_set_at _ _ _ _ _ _ E). destruct (Nat.eqb k j); [right; reflexivity|left; exists o; exact Ho].
  - destruct (nth_error (p_obj p) j) as [[q|]|] eqn:E; try discriminate H.
    destruct (do_call N eps fuel (load (p_mem p) q) c) as [[s'| |]|]; try discriminate H. destruct (put_all _ _ _) as [(m & ps)| |]; try discriminate H. injection H as <-. cbn [p_obj].
    rewrite (nth_set_at _ _ _ _ _ _ E). left. destruct (Nat.eqb k j); eexists; [reflexivity|exact Ho].
Qed.
Lemma ocalls_gone : forall N eps fuel cs p p' k, copy_free cs -> do_ocalls N eps fuel p cs = Some (Ok p') -> nth_error (p_obj p) k = Some None -> nth_error (p_obj p') k = Some None.
Proof.
  intros N eps fuel cs. induction cs as [|c cs IH]; intros p p' k Hf H Hk; cbn [do_ocalls] in H; [injection H as <-; exact Hk|].
  destruct (do_ocall N eps fuel p c) as [[p1| |]|] eqn:E; try discriminate H. apply (IH p1 p' k); [intros j Hj; apply (Hf j); right; exact Hj|exact H|]. clear H.
  destruct c as [tol f|j|j|j c]; cbn [do_ocall] in E.
  - injection E as <-. cbn [p_obj]. rewrite nth_error_app1 by (apply nth_error_Some; congruence). exact Hk.
  - exfalso. apply (Hf j). left. reflexivity.
  - destruct (nth_error (p_obj p) j) as [[q|]|] eqn:Ej; try discriminate E. injection E as <-. cbn [p_obj]. rewrite (nth_set_at _ _ _ _ _ _ Ej). destruct (Nat.eqb k j); [reflexivity|exact Hk].
  - destruct (nth_error (p_obj p) j) as [[q|]|] eqn:Ej; try discriminate E.
    destruct (do_call N eps fuel (load (p_mem p) q) c) as [[s'| |]|]; try discriminate E. destruct (put_all _ _ _) as [(m & ps)| |]; try discriminate E. injection E as <-. cbn [p_obj].
    rewrite (nth_set_at _ _ _ _ _ _ Ej). destruct (Nat.eqb k j) eqn:Q; [apply Nat.eqb_eq in Q; congruence|exact Hk].
Qed.

Lemma ocalls_freed : forall N eps fuel cs p p' a n, (1 <= N)%nat -> 0 <= n -> n + Z.of_nat (length cs) + 2000 < 2 ^ 32 -> copy_free cs -> sep p -> all_bounded N n (seen p) -> do_ocalls N eps fuel p cs = Some (Ok p') ->
  m_blk (p_mem p) a = None -> (a < m_next (p_mem p))%nat -> m_blk (p_mem p') a = None.
Proof.
  intros N eps fuel cs. induction cs as [|c cs IH]; intros p p' a n HN H0 Hn Hf Hs Hb H Ha La; cbn [do_ocalls length] in *; [injection H as <-; exact Ha|].
  destruct (do_ocall N eps fuel p c) as [[p1| |]|] eqn:E; try discriminate H. assert (Hc : forall k, c <> OCopy k) by (intros k X; apply (Hf k); left; exact X).
  destruct (ocall_facts N eps fuel p c p1 n HN H0 ltac:(lia) Hc Hs Hb E) as (S1 & B1 & _).
  destruct (ocall_freed N eps fuel p c p1 a HN Hc Hs E Ha La) as (A1 & A2).
  apply (IH p1 p' a (n + 1)); try assumption; try lia. intros j Hj. apply (Hf j). right. exact Hj.
Qed.

Lemma pointer_run : forall N eps fuel cs p p' n k o o' a, (1 <= N)%nat -> 0 <= n -> n + Z.of_nat (length cs) + 2000 < 2 ^ 32 -> copy_free cs -> sep p -> all_bounded N n (seen p) ->
  do_ocalls N eps fuel p cs = Some (Ok p') -> object p k o -> object p' k o' -> nth 1 (o_ptr o) None = Some a ->
  let al := s_alloc (k_store (load (p_mem p) o)) in let al' := s_alloc (k_store (load (p_mem p') o')) in
  (al' = al /\ nth 1 (o_ptr o') None = Some a) \/ (al < al' /\ m_blk (p_mem p') a = None).
Proof.
  intros N eps fuel cs. induction cs as [|c cs IH]; intros p p' n k o o' a HN H0 Hn Hf Hs Hb H Ho Ho' Ha; cbn [do_ocalls length] in *; cbv zeta.
  - injection H as <-. assert (o' = o) by (unfold object in *; congruence). subst o'. left. split; [reflexivity|exact Ha].
  - destruct (do_ocall N eps fuel p c) as [[p1| |]|] eqn:E; try discriminate H. assert (Hc : forall k, c <> OCopy k) by (intros j X; apply (Hf j); left; exact X).
    assert (Hf' : copy_free cs) by (intros j Hj; apply (Hf j); right; exact Hj).
    destruct (ocall_facts N eps fuel p c p1 n HN H0 ltac:(lia) Hc Hs Hb E) as (S1 & B1 & _).
    destruct (ocall_back N eps fuel p c p1 k o E Ho) as [(q & Hq)|Hq]; [|pose proof (ocalls_gone N eps fuel cs p1 p' k Hf' H Hq) as X; unfold object in Ho'; congruence].
    destruct (pointer_step N eps fuel p c p1 n k o q a HN H0 ltac:(lia) Hc Hs Hb E Ho Hq Ha) as [(X1 & X2)|(X1 & X2 & X3)].
    + destruct (IH p1 p' (n + 1) k q o' a HN ltac:(lia) ltac:(lia) Hf' S1 B1 H Hq Ho' X2) as [(Y1 & Y2)|(Y1 & Y2)].
      * left. split; [congruence|exact Y2].
      * right. split; [lia|exact Y2].
    + right. split; [|exact (ocalls_freed N eps fuel cs p1 p' a (n + 1) HN ltac:(lia) ltac:(lia) Hf' S1 B1 H X2 X3)].
      (* the capacity does not shrink *)
      assert (Mono : forall cs p p' n k q o', 0 <= n -> n + Z.of_nat (length cs) + 2000 < 2 ^ 32 -> copy_free cs -> sep p -> all_bounded N n (seen p) -> do_ocalls N eps fuel p cs = Some (Ok p') ->
        object p k q -> object p' k o' -> s_alloc (k_store (load (p_mem p) q)) <= s_alloc (k_store (load (p_mem p') o'))).
      { clear - HN. induction cs as [|c cs IH]; intros p p' n k q o' H0 Hn Hf Hs Hb H Ho Ho'; cbn [do_ocalls length] in *.
        - injection H as <-. assert (o' = q) by (unfold object in *; congruence). subst o'. lia.
        - destruct (do_ocall N eps fuel p c) as [[p1| |]|] eqn:E; try discriminate H. assert (Hc : forall k, c <> OCopy k) by (intros j X; apply (Hf j); left; exact X).
          assert (Hf' : copy_free cs) by (intros j Hj; apply (Hf j); right; exact Hj).
          destruct (ocall_facts N eps fuel p c p1 n HN H0 ltac:(lia) Hc Hs Hb E) as (S1 & B1 & V1).
          destruct (ocall_back N eps fuel p c p1 k q E Ho) as [(r & Hr)|Hr]; [|pose proof (ocalls_gone N eps fuel cs p1 p' k Hf' H Hr) as X; unfold object in Ho'; congruence].
          pose proof (IH p1 p' (n + 1) k r o' ltac:(lia) ltac:(lia) Hf' S1 B1 H Hr Ho') as M.
          destruct (proj2 (vcall_bounded _ _ _ _ _ _ _ HN H0 ltac:(lia) Hc Hb V1) k _ _ (object_seen p k q Ho) (object_seen p1 k r Hr)); lia. }
      pose proof (Mono cs p1 p' (n + 1) k q o' ltac:(lia) ltac:(lia) Hf' S1 B1 H Hq Ho'). lia.
Qed.
Lemma ocalls_bounded : forall N eps fuel cs p p' n, (1 <= N)%nat -> 0 <= n -> n + Z.of_nat (length cs) + 2000 < 2 ^ 32 -> copy_free cs -> sep p -> all_bounded N n (seen p) -> do_ocalls N eps fuel p cs = Some (Ok p') ->
  sep p' /\ all_bounded N (n + Z.of_nat (length cs)) (seen p').
Proof.
  intros N eps fuel cs. induction cs as [|c cs IH]; intros p p' n HN H0 Hn Hf Hs Hb H; cbn [do_ocalls length] in *.
  - injection H as <-. replace (n + Z.of_nat 0) with n by lia. split; assumption.
  - destruct (do_ocall N eps fuel p c) as [[p1| |]|] eqn:E; try discriminate H. assert (Hc : forall k, c <> OCopy k) by (intros j X; apply (Hf j); left; exact X).
    destruct (ocall_facts N eps fuel p c p1 n HN H0 ltac:(lia) Hc Hs Hb E) as (S1 & B1 & _).
    replace (n + Z.of_nat (S (length cs))) with (n + 1 + Z.of_nat (length cs)) by lia. apply (IH p1 p' (n + 1)); try assumption; try lia. intros j Hj. apply (Hf j). right. exact Hj.
Qed.

(** * Memory that is never freed *)
Definition cnt (g : nat -> bool) (n : nat) : nat := length (filter g (seq 0 n)).
Lemma cnt_S : forall g n, cnt g (S n) = (cnt g n + if g n then 1 else 0)%nat.
Proof. intros g n. unfold cnt. rewrite seq_S, filter_app, app_length. cbn [filter Nat.add]. destruct (g n); reflexivity. Qed.
Lemma cnt_ext : forall g g' n, (forall a, (a < n)%nat -> g a = g' a) -> cnt g n = cnt g' n.
Proof. intros g g' n. induction n as [|n IH]; intro H; [reflexivity|]. rewrite !cnt_S, IH, (H n) by (intros; try apply H; lia). reflexivity. Qed.
Lemma cnt_drop : forall g g' a n, (a < n)%nat -> g a = true -> g' a = false -> (forall b, b <> a -> g' b = g b) -> cnt g n = S (cnt g' n).
Proof.
  intros g g' a n. induction n as [|n IH]; intros La H1 H2 H3; [lia|]. rewrite !cnt_S. destruct (Nat.eq_dec a n) as [->|Ne].
  - rewrite H1, H2, (cnt_ext g' g n) by (intros b Hb; apply H3; lia). lia.
  - rewrite (IH ltac:(lia) H1 H2 H3), (H3 n) by lia. lia.
Qed.
Lemma allocated_cnt : forall m, allocated m = cnt (alive m) (m_next m). Proof. reflexivity. Qed.
Lemma allocated_fresh : forall m b, allocated (fst (fresh m b)) = S (allocated m).
Proof.
  intros m b. rewrite !allocated_cnt. unfold fresh. cbn [fst m_next]. rewrite cnt_S. unfold alive at 2. cbn [m_blk]. rewrite Nat.eqb_refl.
  rewrite (cnt_ext _ (alive m)); [lia|]. intros a Ha. unfold alive. cbn [m_blk]. destruct (Nat.eqb a (m_next m)) eqn:E; [apply Nat.eqb_eq in E; lia|reflexivity].
Qed.
Lemma put_allocated : forall m p b m' p', wf m -> put m p b = Ok (m', p') -> wf m' /\ (allocated m <= allocated m')%nat.
Proof.
  intros m [a|] b m' p' W H; cbn [put] in H.
  - destruct (m_blk m a) as [old|] eqn:E.
    + assert (La : (a < m_next m)%nat) by (destruct (Nat.lt_ge_cases a (m_next m)) as [L|L]; [exact L|rewrite (W a L) in E; discriminate E]).
      destruct (b_size b =? b_size old).
      * injection H as <- _. split.
        -- intros x Hx. cbn [m_blk m_next] in *. destruct (Nat.eqb x a) eqn:Ex; [apply Nat.eqb_eq in Ex; lia|exact (W x Hx)].
        -- rewrite !allocated_cnt. cbn [m_next]. apply Nat.eq_le_incl, cnt_ext. intros x Hx. unfold alive. cbn [m_blk]. destruct (Nat.eqb x a) eqn:Ex; [apply Nat.eqb_eq in Ex; subst x; rewrite E; reflexivity|reflexivity].
      * set (m0 := Mem (fun a' => if Nat.eqb a' a then None else m_blk m a') (m_next m)) in *.
        assert (A0 : allocated m = S (allocated m0)).
        { rewrite !allocated_cnt. cbn [m0 m_next]. apply (cnt_drop _ _ a); [exact La|unfold alive; rewrite E; reflexivity|unfold alive, m0; cbn [m_blk]; rewrite Nat.eqb_refl; reflexivity|].
          intros x Hx. unfold alive, m0. cbn [m_blk]. destruct (Nat.eqb x a) eqn:Ex; [apply Nat.eqb_eq in Ex; congruence|reflexivity]. }
        pose proof (allocated_fresh m0 b) as A1. destruct (fresh m0 b) as (m1, a1) eqn:Ef. injection H as <- _. cbn [fst] in A1. split; [|lia].
        unfold fresh in Ef. injection Ef as <- _. intros x Hx. cbn [m0 m_blk m_next] in *. destruct (Nat.eqb x (m_next m)) eqn:Ex; [apply Nat.eqb_eq in Ex; lia|]. destruct (Nat.eqb x a); [reflexivity|apply W; lia].
    + destruct (b_size b =? 0); [injection H as <- _; split; [exact W|lia]|discriminate H].
  - destruct (b_size b =? 0); [injection H as <- _; split; [exact W|lia]|].
    pose proof (allocated_fresh m b) as A1. destruct (fresh m b) as (m1, a1) eqn:Ef. injection H as <- _. cbn [fst] in A1. split; [|lia].
    unfold fresh in Ef. injection Ef as <- _. intros x Hx. cbn [m_blk m_next] in *. destruct (Nat.eqb x (m_next m)) eqn:Ex; [apply Nat.eqb_eq in Ex; lia|]. apply W. lia.
Qed.
Lemma put_all_allocated : forall ps bs m m' ps', wf m -> put_all m ps bs = Ok (m', ps') -> wf m' /\ (allocated m <= allocated m')%nat.
Proof.
  induction ps as [|p ps IH]; intros bs m m' ps' W H; cbn [put_all] in H; [injection H as <- _; split; [exact W|lia]|].
  destruct bs as [|b bs]; [injection H as <- _; split; [exact W|lia]|].
  apply obind_ok in H. destruct H as ((m1, p1) & H1 & H). apply obind_ok in H. destruct H as ((m2, ps2) & H2 & H). cbn [fst snd] in *. injection H as <- _.
  destruct (put_allocated _ _ _ _ _ W H1) as (W1 & A1). destruct (IH _ _ _ _ W1 H2) as (W2 & A2). split; [exact W2|lia].
Qed.
Lemma ocalls_allocated : forall N eps fuel cs p p', wf (p_mem p) -> do_ocalls N eps fuel p cs = Some (Ok p') -> wf (p_mem p') /\ (allocated (p_mem p) <= allocated (p_mem p'))%nat.
Proof.
  intros N eps fuel cs. induction cs as [|c cs IH]; intros p p' W H; cbn [do_ocalls] in H; [injection H as <-; split; [exact W|lia]|].
  destruct (do_ocall N eps fuel p c) as [[p1| |]|] eqn:E; try discriminate H.
  assert (Q : wf (p_mem p1) /\ (allocated (p_mem p) <= allocated (p_mem p1))%nat).
  { destruct c as [tol f|j|j|j c]; cbn [do_ocall] in E.
    - injection E as <-. split; [exact W|cbn [p_mem]; lia].
    - destruct (nth_error (p_obj p) j) as [[q|]|]; try discriminate E. injection E as <-. split; [exact W|cbn [p_mem]; lia].
    - destruct (nth_error (p_obj p) j) as [[q|]|]; try discriminate E. injection E as <-. split; [exact W|cbn [p_mem]; lia].
    - destruct (nth_error (p_obj p) j) as [[q|]|]; try discriminate E. destruct (do_call N eps fuel (load (p_mem p) q) c) as [[s'| |]|]; try discriminate E.
      destruct (put_all _ _ _) as [(m & ps)| |] eqn:Ea; try discriminate E. injection E as <-. exact (put_all_allocated _ _ _ _ _ W Ea). }
  destruct Q as (W1 & A1). destruct (IH p1 p' W1 H) as (W2 & A2). split; [exact W2|lia].
Qed.
