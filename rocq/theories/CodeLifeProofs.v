From Verif Require Import Base FieldOwnModel FieldOwnProofs CodeLifeModel CodeLifeSpec.

Section Proofs.
Variable A : Type.
Variable xi : A.
Variable g : A -> A.
Implicit Types w : world A.
Implicit Types h : heap A.

Lemma set_same : forall T (l : list T) i x y, nth_error l i = Some y -> nth_error (set l i x) i = Some x.
Proof. intros T l. induction l as [|z l IH]; intros [|i] x y H; cbn in *; try discriminate; [reflexivity|]. exact (IH _ _ _ H). Qed.

Lemma set_other : forall T (l : list T) i j x, i <> j -> nth_error (set l i x) j = nth_error l j.
Proof.
  intros T l. induction l as [|z l IH]; intros i j x N; [destruct i; reflexivity|].
  destruct i as [|i], j as [|j]; cbn; try reflexivity; [congruence|]. apply IH. congruence.
Qed.

Lemma get_code_ok : forall w i k, get_code w i = Ok k <-> nth_error (w_codes w) i = Some (Some k).
Proof. intros w i k. unfold get_code. destruct (nth_error (w_codes w) i) as [[x|]|]; split; intro H; try discriminate; congruence. Qed.

Lemma get_table_ok : forall w i k, get_table w i = Ok k <-> nth_error (w_tables w) i = Some (Some k).
Proof. intros w i k. unfold get_table. destruct (nth_error (w_tables w) i) as [[x|]|]; split; intro H; try discriminate; congruence. Qed.

Lemma run_cons : forall c cs w w' rs, run xi g w (c :: cs) = Ok (w', rs) ->
  exists w1 r rs', step xi g w c = Ok (w1, r) /\ run xi g w1 cs = Ok (w', rs') /\ rs = r :: rs'.
Proof.
  intros c cs w w' rs H. cbn [run] in H. destruct (step xi g w c) as [[w1 r]| |]; cbn [obind fst snd] in H; try discriminate H.
  destruct (run xi g w1 cs) as [[w2 rs']| |] eqn:R; cbn [obind fst snd] in H; try discriminate H.
  injection H as <- <-. exists w1, r, rs'. repeat split; try reflexivity. exact R.
Qed.

Lemma run_app : forall a b w w' rs, run xi g w (a ++ b) = Ok (w', rs) <->
  exists w1 ra rb, run xi g w a = Ok (w1, ra) /\ run xi g w1 b = Ok (w', rb) /\ rs = ra ++ rb.
Proof.
  induction a as [|c a IH]; intros b w w' rs; cbn [app].
  - split.
    + intro H. exists w, [], rs. repeat split; try reflexivity. exact H.
    + intros (w1 & ra & rb & E & H & ->). cbn [run] in E. injection E as <- <-. exact H.
  - split.
    + intro H. apply run_cons in H. destruct H as (w1 & r & rs' & S1 & H & ->).
      apply IH in H. destruct H as (w2 & ra & rb & H1 & H2 & ->).
      exists w2, (r :: ra), rb. split; [|split; [exact H2|reflexivity]].
      cbn [run]. rewrite S1. cbn [obind fst snd]. rewrite H1. reflexivity.
    + intros (w2 & ra & rb & H1 & H2 & ->). apply run_cons in H1. destruct H1 as (w1 & r & ra' & S1 & H1 & ->).
      cbn [run]. rewrite S1. cbn [obind fst snd].
      assert (H : run xi g w1 (a ++ b) = Ok (w', ra' ++ rb)) by (apply IH; exists w2, ra', rb; auto).
      rewrite H. reflexivity.
Qed.

Lemma run_length : forall cs w w' rs, run xi g w cs = Ok (w', rs) -> length rs = length cs.
Proof.
  induction cs as [|c cs IH]; intros w w' rs H.
  - cbn in H. injection H as <- <-. reflexivity.
  - apply run_cons in H. destruct H as (w1 & r & rs' & _ & H & ->). cbn. now rewrite (IH _ _ _ H).
Qed.

(** A defined call as an equation. *)
Lemma fre_ptr_ok : forall h p h', fre_ptr h p = Ok h' ->
  match p with
  | None => h' = h
  | Some q => (exists v, nth_error h q = Some (Some v)) /\ h' = upd h q None
  end.
Proof. intros h [q|] h' H; cbn [fre_ptr] in H; [exact (proj1 (fre_ok _ _ _ _) H)|congruence]. Qed.

Definition destroyed_heap h (k : code) : heap A :=
  let h1 := match k_f k with Some q => upd h q None | None => h end in
  match k_p k with Some q => upd h1 q None | None => h1 end.

Lemma step_inv : forall w c w' r, step xi g w c = Ok (w', r) ->
  match c with
  | New => w' = mkWorld (w_heap w) (w_codes w ++ [Some new_code]) (w_tables w) /\ r = RCode (length (w_codes w))
  | Load i p f known => exists k, nth_error (w_codes w) i = Some (Some k) /\
      w' = mkWorld (w_heap w ++ [Some p; Some f])
             (set (w_codes w) i (Some (mkCode true (Some (length (w_heap w))) (Some (S (length (w_heap w)))) true known (init_interp known)))) (w_tables w) /\
      r = if known then RNothing else RThrow
  | MinClone i => exists k, nth_error (w_codes w) i = Some (Some k) /\ k_dims k = true /\
      ((w' = w /\ r = RThrow /\ (k_p k = None \/ k_f k = None \/ k_known k = false)) \/
       exists p f, k_p k = Some p /\ k_f k = Some f /\ k_known k = true /\
         (exists v, nth_error (w_heap w) p = Some (Some v)) /\ (exists v, nth_error (w_heap w) f = Some (Some v)) /\
         w' = mkWorld (w_heap w) (w_codes w ++ [Some (mkCode true (Some p) (Some f) true true IReady)]) (w_tables w) /\
         r = RCode (length (w_codes w)))
  | Destroy i => exists k, nth_error (w_codes w) i = Some (Some k) /\ k_interp k <> IUnset /\
      (forall q, k_f k = Some q -> exists v, nth_error (w_heap w) q = Some (Some v)) /\
      (forall q, k_p k = Some q -> exists v, nth_error (w_heap w) q = Some (Some v)) /\
      w' = mkWorld (destroyed_heap (w_heap w) k) (set (w_codes w) i (Some (mkCode (k_dims k) None None false (k_known k) INone))) (w_tables w) /\
      r = RNothing
  | Delete i => exists k, nth_error (w_codes w) i = Some (Some k) /\ k_interp k <> IUnset /\
      w' = mkWorld (w_heap w) (set (w_codes w) i None) (w_tables w) /\ r = RNothing
  | Eval i => exists k p f vp vf, nth_error (w_codes w) i = Some (Some k) /\ k_p k = Some p /\ k_f k = Some f /\ k_interp k = IReady /\
      nth_error (w_heap w) p = Some (Some vp) /\ nth_error (w_heap w) f = Some (Some vf) /\ w' = w /\ r = RValue [vp; vf]
  | ToMomentumSpace i => exists k p f vp vf, nth_error (w_codes w) i = Some (Some k) /\ k_p k = Some p /\ k_f k = Some f /\
      nth_error (w_heap w) p = Some (Some vp) /\ nth_error (w_heap w) f = Some (Some vf) /\
      w' = mkWorld (w_heap w ++ [Some xi; Some (g vf)]) (w_codes w)
             (w_tables w ++ [Some (mkTable p (length (w_heap w)) (S (length (w_heap w))) [vp; xi; g vf])]) /\
      r = RTable (length (w_tables w))
  | TEval j => exists t, nth_error (w_tables w) j = Some (Some t) /\ w' = w /\ r = RValue (t_spline t)
  | TMinClone j => exists t vs, nth_error (w_tables w) j = Some (Some t) /\ rd_all (w_heap w) [t_p t; t_xi t; t_f t] = Ok vs /\
      w' = mkWorld (w_heap w) (w_codes w) (w_tables w ++ [Some (mkTable (t_p t) (t_xi t) (t_f t) vs)]) /\
      r = RTable (length (w_tables w))
  | TDelete j => exists t, nth_error (w_tables w) j = Some (Some t) /\ w' = mkWorld (w_heap w) (w_codes w) (set (w_tables w) j None)
  end.
Proof.
  intros w c w' r H. destruct c as [|i p f known|i|i|i|i|i|j|j|j]; cbn [step] in H.
  - injection H as <- <-. split; reflexivity.
  - destruct (get_code w i) as [k| |] eqn:K; cbn [obind] in H; try discriminate H. apply get_code_ok in K.
    unfold load in H. injection H as <- <-. exists k. split; [exact K|]. split; reflexivity.
  - destruct (get_code w i) as [k| |] eqn:K; cbn [obind] in H; try discriminate H. apply get_code_ok in K.
    exists k. split; [exact K|]. unfold min_clone in H. destruct (k_dims k); cbn [negb] in H; [|discriminate H]. split; [reflexivity|].
    destruct (k_p k) as [p|].
    2: { injection H as <- <-. left. split; [reflexivity|]. split; [reflexivity|]. now left. }
    destruct (k_f k) as [f|].
    2: { injection H as <- <-. left. split; [reflexivity|]. split; [reflexivity|]. right. now left. }
    destruct (k_known k); cbn [negb] in H.
    2: { injection H as <- <-. left. split; [reflexivity|]. split; [reflexivity|]. right. now right. }
    right. destruct (rd (w_heap w) p) as [vp| |] eqn:P; cbn [obind] in H; try discriminate H.
    destruct (rd (w_heap w) f) as [vf| |] eqn:F; cbn [obind] in H; try discriminate H.
    apply rd_ok in P. apply rd_ok in F. injection H as <- <-. exists p, f. repeat split; try reflexivity; eauto.
  - destruct (get_code w i) as [k| |] eqn:K; cbn [obind] in H; try discriminate H. apply get_code_ok in K.
    exists k. split; [exact K|]. unfold destroy in H.
    destruct (fre_ptr (w_heap w) (k_f k)) as [h1| |] eqn:F1; cbn [obind] in H; try discriminate H.
    destruct (fre_ptr h1 (k_p k)) as [h2| |] eqn:F2; cbn [obind] in H; try discriminate H.
    apply fre_ptr_ok in F1. apply fre_ptr_ok in F2.
    assert (NI : k_interp k <> IUnset) by (intro E; rewrite E in H; discriminate H).
    assert (EH : h2 = destroyed_heap (w_heap w) k).
    { unfold destroyed_heap. destruct (k_f k) as [f|], (k_p k) as [p|].
      - destruct F1 as (_ & ->). destruct F2 as (_ & ->). reflexivity.
      - destruct F1 as (_ & ->). exact F2.
      - rewrite F1 in F2. destruct F2 as (_ & ->). reflexivity.
      - congruence. }
    split; [exact NI|]. split; [intros q E; rewrite E in F1; exact (proj1 F1)|]. split.
    { intros q E. rewrite E in F2. destruct F2 as ((v & V) & _). destruct (k_f k) as [f|].
      - destruct F1 as (_ & ->). destruct (Nat.eq_dec f q) as [->|N].
        + destruct (nth_error (w_heap w) q) as [y|] eqn:Y; [rewrite (upd_same _ _ _ _ _ Y) in V; discriminate V|].
          exfalso. assert (X : q < length (upd (w_heap w) q None)) by (apply nth_error_Some; congruence).
          rewrite upd_length in X. apply nth_error_None in Y. lia.
        + rewrite upd_other in V by exact N. exists v. exact V.
      - subst h1. exists v. exact V. }
    destruct (k_interp k); [| |congruence]; injection H as <- <-; rewrite EH; split; reflexivity.
  - destruct (get_code w i) as [k| |] eqn:K; cbn [obind] in H; try discriminate H. apply get_code_ok in K.
    exists k. split; [exact K|]. unfold delete in H.
    destruct (k_interp k); try discriminate H; injection H as <- <-; (split; [discriminate|split; reflexivity]).
  - destruct (get_code w i) as [k| |] eqn:K; cbn [obind] in H; try discriminate H. apply get_code_ok in K. unfold eval in H.
    destruct (k_p k) as [p|] eqn:KP; cbn [rd_ptr obind] in H; [|discriminate H].
    destruct (rd (w_heap w) p) as [vp| |] eqn:P; cbn [obind] in H; try discriminate H.
    destruct (k_interp k) eqn:KI; try discriminate H.
    destruct (k_f k) as [f|] eqn:KF; cbn [rd_ptr obind] in H; [|discriminate H].
    destruct (rd (w_heap w) f) as [vf| |] eqn:F; cbn [obind] in H; try discriminate H.
    apply rd_ok in P. apply rd_ok in F. injection H as <- <-. exists k, p, f, vp, vf. repeat split; assumption.
  - destruct (get_code w i) as [k| |] eqn:K; cbn [obind] in H; try discriminate H. apply get_code_ok in K. unfold to_momentum_space in H.
    destruct (k_leg k); cbn [negb] in H; [|discriminate H]. cbv zeta in H.
    destruct (k_f k) as [f|] eqn:KF; cbn [rd_ptr obind] in H; [|discriminate H].
    destruct (rd (w_heap w) f) as [vf| |] eqn:F; cbn [obind] in H; try discriminate H.
    destruct (k_p k) as [p|] eqn:KP; [|discriminate H].
    destruct (rd (w_heap w) p) as [vp| |] eqn:P; cbn [obind] in H; try discriminate H.
    apply rd_ok in P. apply rd_ok in F. injection H as <- <-. exists k, p, f, vp, vf. repeat split; assumption.
  - destruct (get_table w j) as [t| |] eqn:K; cbn [obind] in H; try discriminate H. apply get_table_ok in K.
    injection H as <- <-. exists t. repeat split; assumption.
  - destruct (get_table w j) as [t| |] eqn:K; cbn [obind] in H; try discriminate H. apply get_table_ok in K. unfold t_min_clone in H.
    destruct (rd_all (w_heap w) [t_p t; t_xi t; t_f t]) as [vs| |] eqn:V; cbn [obind] in H; try discriminate H.
    injection H as <- <-. exists t, vs. repeat split; assumption.
  - destruct (get_table w j) as [t| |] eqn:K; cbn [obind] in H; try discriminate H. apply get_table_ok in K.
    injection H as <- <-. exists t. split; [exact K|reflexivity].
Qed.

(** Arrays: contents never change; they disappear when an object that has them is destroyed. *)
Lemma step_heap_length : forall w c w' r, step xi g w c = Ok (w', r) -> length (w_heap w) <= length (w_heap w').
Proof.
  intros w c w' r H. apply step_inv in H. destruct c as [|i p f known|i|i|i|i|i|j|j|j].
  - destruct H as (-> & _). cbn [w_heap]. lia.
  - destruct H as (k & _ & -> & _). cbn [w_heap]. rewrite app_length. lia.
  - destruct H as (k & _ & _ & [(-> & _)|(p & f & _ & _ & _ & _ & _ & -> & _)]); cbn [w_heap]; lia.
  - destruct H as (k & _ & _ & _ & _ & -> & _). cbn [w_heap]. unfold destroyed_heap.
    destruct (k_f k), (k_p k); rewrite ?upd_length; lia.
  - destruct H as (k & _ & _ & -> & _). cbn [w_heap]. lia.
  - destruct H as (k & p & f & vp & vf & _ & _ & _ & _ & _ & _ & -> & _). lia.
  - destruct H as (k & p & f & vp & vf & _ & _ & _ & _ & _ & -> & _). cbn [w_heap]. rewrite app_length. lia.
  - destruct H as (t & _ & -> & _). lia.
  - destruct H as (t & vs & _ & _ & -> & _). cbn [w_heap]. lia.
  - destruct H as (t & _ & ->). cbn [w_heap]. lia.
Qed.

Definition has_array (k : code) (q : nat) : Prop := k_p k = Some q \/ k_f k = Some q.

Lemma destroyed_other : forall h k q, ~ has_array k q -> nth_error (destroyed_heap h k) q = nth_error h q.
Proof.
  intros h k q N. unfold destroyed_heap, has_array in *.
  destruct (k_p k) as [p|], (k_f k) as [f|]; rewrite ?upd_other; try reflexivity; intro E; apply N; subst; tauto.
Qed.

Lemma destroyed_same : forall h k q x, has_array k q -> nth_error h q = Some x -> nth_error (destroyed_heap h k) q = Some None.
Proof.
  intros h k q x H X. unfold destroyed_heap, has_array in *.
  destruct (k_p k) as [p|] eqn:KP, (k_f k) as [f|] eqn:KF.
  - destruct (Nat.eq_dec p q) as [->|NP].
    + destruct (Nat.eq_dec f q) as [->|NF].
      * assert (Y := upd_same _ _ _ None _ X). exact (upd_same _ _ _ _ _ Y).
      * assert (Y : nth_error (upd h f None) q = Some x) by (now rewrite upd_other). exact (upd_same _ _ _ _ _ Y).
    + rewrite upd_other by exact NP. destruct H as [H|H]; [congruence|]. injection H as ->. exact (upd_same _ _ _ _ _ X).
  - destruct H as [H|H]; [|discriminate H]. injection H as ->. exact (upd_same _ _ _ _ _ X).
  - destruct H as [H|H]; [discriminate H|]. injection H as ->. exact (upd_same _ _ _ _ _ X).
  - destruct H as [H|H]; discriminate H.
Qed.

Lemma step_cell : forall w c w' r q, step xi g w c = Ok (w', r) -> q < length (w_heap w) ->
  nth_error (w_heap w') q = nth_error (w_heap w) q \/
  (nth_error (w_heap w') q = Some None /\ exists i k, c = Destroy i /\ nth_error (w_codes w) i = Some (Some k) /\ has_array k q).
Proof.
  intros w c w' r q H L. apply step_inv in H. destruct c as [|i p f known|i|i|i|i|i|j|j|j].
  - destruct H as (-> & _). now left.
  - destruct H as (k & _ & -> & _). left. cbn [w_heap]. now rewrite nth_error_app1.
  - destruct H as (k & _ & _ & [(-> & _)|(p & f & _ & _ & _ & _ & _ & -> & _)]); now left.
  - destruct H as (k & K & _ & _ & _ & -> & _). cbn [w_heap].
    assert (D : has_array k q \/ ~ has_array k q).
    { unfold has_array. destruct (k_p k) as [p|], (k_f k) as [f|];
        try destruct (Nat.eq_dec p q) as [->|]; try destruct (Nat.eq_dec f q) as [->|]; try (left; tauto); right; intros [E|E]; congruence. }
    destruct D as [D|D]; [right|left; now apply destroyed_other].
    destruct (nth_error (w_heap w) q) as [x|] eqn:X; [|apply nth_error_None in X; lia].
    split; [exact (destroyed_same _ _ _ _ D X)|]. exists i, k. repeat split; assumption.
  - destruct H as (k & _ & _ & -> & _). now left.
  - destruct H as (k & p & f & vp & vf & _ & _ & _ & _ & _ & _ & -> & _). now left.
  - destruct H as (k & p & f & vp & vf & _ & _ & _ & _ & _ & -> & _). left. cbn [w_heap]. now rewrite nth_error_app1.
  - destruct H as (t & _ & -> & _). now left.
  - destruct H as (t & vs & _ & _ & -> & _). now left.
  - destruct H as (t & _ & ->). now left.
Qed.

Lemma run_cell_kept : forall cs w w' rs q v, run xi g w cs = Ok (w', rs) -> nth_error (w_heap w) q = Some (Some v) ->
  (forall i, ~ In (Destroy i) cs) -> nth_error (w_heap w') q = Some (Some v).
Proof.
  induction cs as [|c cs IH]; intros w w' rs q v H Q N.
  - cbn in H. injection H as <- <-. exact Q.
  - apply run_cons in H. destruct H as (w1 & r & rs' & S1 & H & ->).
    apply (IH _ _ _ q v H); [|intros i I'; apply (N i); now right].
    assert (L : q < length (w_heap w)) by (apply nth_error_Some; congruence).
    destruct (step_cell _ _ _ _ _ S1 L) as [E|(_ & i & k & -> & _)]; [congruence|]. exfalso. apply (N i). now left.
Qed.

(** Sound worlds. *)
Lemma nth_app_last : forall T (l : list T) x y i, nth_error (l ++ [x]) i = Some y -> nth_error l i = Some y \/ (i = length l /\ y = x).
Proof.
  intros T l x y i H. destruct (lt_dec i (length l)) as [L|L].
  - left. now rewrite nth_error_app1 in H.
  - right. rewrite nth_error_app2 in H by lia. destruct (i - length l) as [|k] eqn:E; cbn in H.
    + split; [lia|congruence].
    + destruct k; discriminate H.
Qed.

Lemma set_inv : forall T (l : list T) i x j y, nth_error (set l i x) j = Some y -> (i = j /\ y = x /\ exists z, nth_error l i = Some z) \/ (i <> j /\ nth_error l j = Some y).
Proof.
  intros T l i x j y H. destruct (Nat.eq_dec i j) as [->|N].
  - left. destruct (nth_error l j) as [z|] eqn:E.
    + rewrite (set_same _ _ _ _ _ E) in H. split; [reflexivity|]. split; [congruence|eauto].
    + exfalso. apply nth_error_None in E. assert (LS : length (set l j x) = length l).
      { clear. revert j. induction l as [|z l IH]; intros [|j]; cbn; try reflexivity. now rewrite IH. }
      assert (j < length (set l j x)) by (apply nth_error_Some; congruence). lia.
  - right. split; [exact N|]. now rewrite set_other in H by exact N.
Qed.

Lemma step_sound : forall w c w' r, sound w -> step xi g w c = Ok (w', r) -> sound w'.
Proof.
  intros w c w' r SW H. pose proof (step_heap_length _ _ _ _ H) as LEN. apply step_inv in H.
  assert (MONO : forall k, (forall i, nth_error (w_codes w) i = Some (Some k) ->
     (forall p, k_p k = Some p -> p < length (w_heap w')) /\ (forall f, k_f k = Some f -> f < length (w_heap w')) /\
     (k_interp k = IUnset -> k_known k = false) /\
     (k_interp k <> INone -> k_dims k = true /\ k_leg k = true /\ k_p k <> None /\ k_f k <> None) /\
     (k_interp k = INone -> k_p k = None /\ k_f k = None /\ k_leg k = false))).
  { intros k i K. destruct (SW i k K) as (A1 & A2 & A3). split; [intros p E; specialize (A1 p E); lia|].
    split; [intros f E; specialize (A2 f E); lia|exact A3]. }
  intros j k' K'. destruct c as [|i p f known|i|i|i|i|i|j0|j0|j0].
  - destruct H as (-> & _). cbn [w_codes] in K'. apply nth_app_last in K'. destruct K' as [K'|(_ & E)]; [exact (MONO _ _ K')|].
    injection E as ->. cbn [new_code k_p k_f k_interp k_known k_dims k_leg].
    split; [discriminate|]. split; [discriminate|]. split; [discriminate|]. split; [congruence|auto].
  - destruct H as (k & K & -> & _). cbn [w_codes w_heap] in *. apply set_inv in K'. destruct K' as [(_ & E & _)|(_ & K')]; [|exact (MONO _ _ K')].
    injection E as ->. cbn [k_p k_f k_interp k_known k_dims k_leg]. rewrite app_length. cbn [length].
    split; [intros q E; injection E as <-; lia|]. split; [intros q E; injection E as <-; lia|].
    split; [destruct known; [discriminate|reflexivity]|].
    split; [intros _; repeat split; discriminate|]. destruct known; discriminate.
  - destruct H as (k & K & KD & [(-> & _)|(p & f & KP & KF & KK & _ & _ & -> & _)]); [exact (MONO _ _ K')|].
    cbn [w_codes w_heap] in *. apply nth_app_last in K'. destruct K' as [K'|(_ & E)]; [exact (MONO _ _ K')|].
    injection E as ->. cbn [k_p k_f k_interp k_known k_dims k_leg]. destruct (SW i k K) as (A1 & A2 & _).
    split; [intros q E; injection E as <-; exact (A1 p KP)|]. split; [intros q E; injection E as <-; exact (A2 f KF)|].
    split; [discriminate|]. split; [intros _; repeat split; discriminate|discriminate].
  - destruct H as (k & K & _ & _ & _ & -> & _). cbn [w_codes] in K'. apply set_inv in K'.
    destruct K' as [(_ & E & _)|(_ & K')]; [|exact (MONO _ _ K')]. injection E as ->.
    cbn [k_p k_f k_interp k_known k_dims k_leg]. split; [discriminate|]. split; [discriminate|]. split; [discriminate|]. split; [congruence|auto].
  - destruct H as (k & K & _ & -> & _). cbn [w_codes] in K'. apply set_inv in K'.
    destruct K' as [(_ & E & _)|(_ & K')]; [discriminate E|exact (MONO _ _ K')].
  - destruct H as (k & p & f & vp & vf & _ & _ & _ & _ & _ & _ & -> & _). exact (MONO _ _ K').
  - destruct H as (k & p & f & vp & vf & _ & _ & _ & _ & _ & -> & _). exact (MONO _ _ K').
  - destruct H as (t & _ & -> & _). exact (MONO _ _ K').
  - destruct H as (t & vs & _ & _ & -> & _). exact (MONO _ _ K').
  - destruct H as (t & _ & ->). exact (MONO _ _ K').
Qed.

Lemma run_sound : forall cs w w' rs, sound w -> run xi g w cs = Ok (w', rs) -> sound w'.
Proof.
  induction cs as [|c cs IH]; intros w w' rs SW H.
  - cbn in H. injection H as <- <-. exact SW.
  - apply run_cons in H. destruct H as (w1 & r & rs' & S1 & H & _). exact (IH _ _ _ (step_sound _ _ _ _ SW S1) H).
Qed.

(** Families. *)
Definition member_code (P F : nat) : code := mkCode true (Some P) (Some F) true true IReady.

Definition fam_inv w (m : family) (P F : nat) (vp vf : A) : Prop :=
  P <> F /\ P < length (w_heap w) /\ F < length (w_heap w) /\
  (forall i, In i (members m) <-> nth_error (w_codes w) i = Some (Some (member_code P F))) /\
  (forall i k, nth_error (w_codes w) i = Some (Some k) -> has_array k P \/ has_array k F -> k = member_code P F) /\
  match m with
  | Members _ => nth_error (w_heap w) P = Some (Some vp) /\ nth_error (w_heap w) F = Some (Some vf)
  | Gone _ => nth_error (w_heap w) P = Some None /\ nth_error (w_heap w) F = Some None
  end.

Lemma without_in : forall i l j, In j (without i l) <-> In j l /\ j <> i.
Proof.
  intros i l j. unfold without. rewrite filter_In. split; intros (H & N); split; try exact H.
  - intros ->. rewrite Nat.eqb_refl in N. discriminate N.
  - destruct (Nat.eqb i j) eqn:E; [apply Nat.eqb_eq in E; congruence|reflexivity].
Qed.

Lemma member_has : forall P F, has_array (member_code P F) P /\ has_array (member_code P F) F.
Proof. intros P F. unfold has_array, member_code. cbn. split; [left|right]; reflexivity. Qed.

Lemma fam_step : forall w c w' r m P F vp vf, sound w -> fam_inv w m P F vp vf -> step xi g w c = Ok (w', r) ->
  fam_inv w' (after m c r) P F vp vf.
Proof.
  intros w c w' r m P F vp vf SW (NPF & LP & LF & MEM & HAS & CONT) H.
  pose proof (step_heap_length _ _ _ _ H) as LEN.
  pose proof (step_cell _ _ _ _ P H LP) as CP. pose proof (step_cell _ _ _ _ F H LF) as CF.
  (* members keep their contents unless a Destroy concerns them *)
  assert (KEEP : (forall i, c = Destroy i -> ~ In i (members m)) ->
            nth_error (w_heap w') P = nth_error (w_heap w) P /\ nth_error (w_heap w') F = nth_error (w_heap w) F).
  { intro NM. split.
    - destruct CP as [E|(_ & i & k & EC & K & HA)]; [exact E|]. exfalso. apply (NM i EC), MEM.
      now rewrite <- (HAS i k K (or_introl HA)).
    - destruct CF as [E|(_ & i & k & EC & K & HA)]; [exact E|]. exfalso. apply (NM i EC), MEM.
      now rewrite <- (HAS i k K (or_intror HA)). }
  apply step_inv in H. destruct c as [|i p f known|i|i|i|i|i|j|j|j]; cbn [after].
  - destruct KEEP as (EP & EF); [discriminate|]. destruct H as (-> & ->). cbn [w_heap w_codes] in *.
    unfold fam_inv; cbn [w_heap w_codes]. split; [exact NPF|]. split; [lia|]. split; [lia|]. split; [|split; [|exact CONT]].
    + intro k. rewrite MEM. split; intro E.
      * rewrite nth_error_app1; [exact E|]. apply nth_error_Some. congruence.
      * apply nth_app_last in E. destruct E as [E|(_ & E)]; [exact E|discriminate E].
    + intros k c K HA. apply nth_app_last in K. destruct K as [K|(_ & E)]; [exact (HAS _ _ K HA)|].
      injection E as ->. unfold has_array in HA. cbn in HA. destruct HA as [[X|X]|[X|X]]; discriminate X.
  - destruct KEEP as (EP & EF); [discriminate|]. destruct H as (k & K & -> & ->). cbn [w_heap w_codes] in *.
    assert (AFT : members (match m with Members l => Members (without i l) | Gone l => Gone (without i l) end) = without i (members m)) by (destruct m; reflexivity).
    unfold fam_inv; cbn [w_heap w_codes]. split; [exact NPF|]. split; [lia|]. split; [lia|]. split; [|split].
    + intro j. rewrite AFT, without_in, MEM. split.
      * intros (E & N). rewrite set_other by congruence. exact E.
      * intro E. apply set_inv in E. destruct E as [(_ & E & _)|(N & E)].
        -- exfalso. unfold member_code in E. injection E as E1 E2 _ _. lia.
        -- split; [exact E|congruence].
    + intros j c' K' HA. apply set_inv in K'. destruct K' as [(_ & E & _)|(_ & K')]; [|exact (HAS _ _ K' HA)].
      exfalso. injection E as ->. unfold has_array in HA. cbn [k_p k_f] in HA.
      destruct HA as [[X|X]|[X|X]]; injection X as X; lia.
    + rewrite EP, EF. destruct m; exact CONT.
  - destruct H as (k & K & KD & [(-> & -> & HN)|(p & f & KP & KF & KK & (v1 & V1) & (v2 & V2) & -> & ->)]).
    { repeat split; try assumption; apply MEM. }
    destruct KEEP as (EP & EF); [discriminate|]. cbn [w_heap w_codes] in *.
    assert (NEW : has_array k P \/ has_array k F -> k = member_code P F) by (exact (HAS i k K)).
    destruct (in_dec Nat.eq_dec i (members m)) as [IM|IM].
    + assert (KM : k = member_code P F) by (apply MEM in IM; congruence).
      assert (p = P) by (subst k; cbn in KP; congruence). assert (f = F) by (subst k; cbn in KF; congruence). subst p f.
      destruct m as [l|l].
      2: { exfalso. destruct CONT as (CP' & _). congruence. }
      unfold fam_inv; cbn [w_heap w_codes]. split; [exact NPF|]. split; [lia|]. split; [lia|]. split; [|split; [|exact CONT]].
      * intro j. cbn [members In]. fold (member_code P F). split.
        -- intros [<-|I']; [rewrite nth_error_app2, Nat.sub_diag by lia; reflexivity|].
           apply MEM in I'. rewrite nth_error_app1; [exact I'|]. apply nth_error_Some. congruence.
        -- intro E. apply nth_app_last in E. destruct E as [E|(-> & _)]; [right; now apply MEM|now left].
      * intros j c' K' HA. apply nth_app_last in K'. destruct K' as [K'|(_ & E)]; [exact (HAS _ _ K' HA)|]. injection E as ->. reflexivity.
    + assert (NH : ~ (has_array k P \/ has_array k F)).
      { intro HA. apply IM, MEM. now rewrite <- (NEW HA). }
      unfold fam_inv; cbn [w_heap w_codes]. split; [exact NPF|]. split; [lia|]. split; [lia|]. split; [|split; [|exact CONT]].
      * intro j. rewrite MEM. split; intro E.
        -- rewrite nth_error_app1; [exact E|]. apply nth_error_Some. congruence.
        -- apply nth_app_last in E. destruct E as [E|(_ & E)]; [exact E|]. exfalso. apply NH. left. left.
           unfold member_code in E. injection E as E1 E2. congruence.
      * intros j c' K' HA. apply nth_app_last in K'. destruct K' as [K'|(_ & E)]; [exact (HAS _ _ K' HA)|].
        exfalso. apply NH. injection E as ->. unfold has_array in *. cbn [k_p k_f] in HA. rewrite KP, KF. exact HA.
  - destruct H as (k & K & NI & LFk & LPk & -> & ->). cbn [w_heap w_codes] in *.
    destruct (in_dec Nat.eq_dec i (members m)) as [IM|IM].
    + assert (KM : k = member_code P F) by (apply MEM in IM; congruence). subst k.
      unfold fam_inv; cbn [w_heap w_codes]. split; [exact NPF|]. split; [lia|]. split; [lia|]. split; [|split].
      * intro j. cbn [members]. rewrite without_in, MEM. split.
        -- intros (E & N). rewrite set_other by congruence. exact E.
        -- intro E. apply set_inv in E. destruct E as [(_ & E & _)|(N & E)]; [discriminate E|split; [exact E|congruence]].
      * intros j c' K' HA. apply set_inv in K'. destruct K' as [(_ & E & _)|(_ & K')]; [|exact (HAS _ _ K' HA)].
        exfalso. injection E as ->. unfold has_array in HA. cbn [k_p k_f] in HA. destruct HA as [[X|X]|[X|X]]; discriminate X.
      * destruct (LPk P eq_refl) as (v1 & V1). destruct (LFk F eq_refl) as (v2 & V2).
        split; [exact (destroyed_same _ _ _ _ (proj1 (member_has P F)) V1)|exact (destroyed_same _ _ _ _ (proj2 (member_has P F)) V2)].
    + destruct KEEP as (EP & EF); [intros i' E; injection E as <-; exact IM|].
      unfold fam_inv; cbn [w_heap w_codes]. split; [exact NPF|]. split; [lia|]. split; [lia|]. split; [|split].
      * intro j. rewrite MEM. split; intro E.
        -- rewrite set_other; [exact E|]. intros ->. apply IM, MEM. exact E.
        -- apply set_inv in E. destruct E as [(_ & E & _)|(_ & E)]; [discriminate E|exact E].
      * intros j c' K' HA. apply set_inv in K'. destruct K' as [(_ & E & _)|(_ & K')]; [|exact (HAS _ _ K' HA)].
        exfalso. injection E as ->. unfold has_array in HA. cbn [k_p k_f] in HA. destruct HA as [[X|X]|[X|X]]; discriminate X.
      * rewrite EP, EF. exact CONT.
  - destruct KEEP as (EP & EF); [discriminate|]. destruct H as (k & K & _ & -> & ->). cbn [w_heap w_codes] in *.
    assert (AFT : members (match m with Members l => Members (without i l) | Gone l => Gone (without i l) end) = without i (members m)) by (destruct m; reflexivity).
    unfold fam_inv; cbn [w_heap w_codes]. split; [exact NPF|]. split; [lia|]. split; [lia|]. split; [|split].
    + intro j. rewrite AFT, without_in, MEM. split.
      * intros (E & N). rewrite set_other by congruence. exact E.
      * intro E. apply set_inv in E. destruct E as [(_ & E & _)|(N & E)]; [discriminate E|split; [exact E|congruence]].
    + intros j c' K' HA. apply set_inv in K'. destruct K' as [(_ & E & _)|(_ & K')]; [discriminate E|exact (HAS _ _ K' HA)].
    + destruct m; exact CONT.
  - destruct H as (k & p & f & v1 & v2 & _ & _ & _ & _ & _ & _ & -> & ->). repeat split; try assumption; apply MEM.
  - destruct KEEP as (EP & EF); [discriminate|].
    destruct H as (k & p & f & v1 & v2 & _ & _ & _ & _ & _ & -> & ->). cbn [w_heap w_codes] in *.
    unfold fam_inv; cbn [w_heap w_codes]. split; [exact NPF|]. split; [lia|]. split; [lia|]. split; [exact MEM|]. split; [exact HAS|]. rewrite EP, EF. exact CONT.
  - destruct H as (t & _ & -> & ->). repeat split; try assumption; apply MEM.
  - destruct H as (t & vs & _ & _ & -> & ->). repeat split; try assumption; apply MEM.
  - destruct H as (t & _ & ->). repeat split; try assumption; apply MEM.
Qed.

Lemma fam_run : forall cs w w' rs m P F vp vf, sound w -> fam_inv w m P F vp vf -> run xi g w cs = Ok (w', rs) ->
  fam_inv w' (history m cs rs) P F vp vf.
Proof.
  induction cs as [|c cs IH]; intros w w' rs m P F vp vf SW FI H.
  - cbn in H. injection H as <- <-. exact FI.
  - apply run_cons in H. destruct H as (w1 & r & rs' & S1 & H & ->). unfold history. cbn [combine fold_left fst snd].
    apply (IH _ _ _ _ _ _ _ _ (step_sound _ _ _ _ SW S1) (fam_step _ _ _ _ _ _ _ _ _ SW FI S1) H).
Qed.

Lemma fam_load : forall w i p f w1 r, sound w -> step xi g w (Load i p f true) = Ok (w1, r) ->
  fam_inv w1 (Members [i]) (length (w_heap w)) (S (length (w_heap w))) p f.
Proof.
  intros w i p f w1 r SW H. apply step_inv in H. destruct H as (k & K & -> & _). cbn [init_interp].
  unfold fam_inv. cbn [w_heap w_codes members]. rewrite app_length. cbn [length].
  fold (member_code (length (w_heap w)) (S (length (w_heap w)))).
  assert (NOLD : forall j k', nth_error (w_codes w) j = Some (Some k') ->
     has_array k' (length (w_heap w)) \/ has_array k' (S (length (w_heap w))) -> False).
  { intros j k' K' HA. destruct (SW j k' K') as (A1 & A2 & _). unfold has_array in HA.
    destruct HA as [[X|X]|[X|X]]; [specialize (A1 _ X)|specialize (A2 _ X)|specialize (A1 _ X)|specialize (A2 _ X)]; lia. }
  split; [lia|]. split; [lia|]. split; [lia|]. split; [|split; [|split]].
  - intro j. cbn [In]. split.
    + intros [<-|[]]. exact (set_same _ _ _ _ _ K).
    + intro E. apply set_inv in E. destruct E as [(-> & _)|(_ & E)]; [now left|]. exfalso.
      exact (NOLD _ _ E (or_introl (proj1 (member_has _ _)))).
  - intros j c K' HA. apply set_inv in K'. destruct K' as [(_ & E & _)|(_ & K')]; [congruence|]. exfalso. exact (NOLD _ _ K' HA).
  - rewrite nth_error_app2, Nat.sub_diag by lia. reflexivity.
  - rewrite nth_error_app2 by lia. replace (S (length (w_heap w)) - length (w_heap w)) with 1 by lia. reflexivity.
Qed.

(** What members can do. *)
Lemma members_use : forall w l P F vp vf j, fam_inv w (Members l) P F vp vf -> In j l ->
  step xi g w (Eval j) = Ok (w, RValue [vp; vf]) /\
  (exists w', step xi g w (MinClone j) = Ok (w', RCode (length (w_codes w)))) /\
  (exists w', step xi g w (ToMomentumSpace j) = Ok (w', RTable (length (w_tables w)))) /\
  (exists w', step xi g w (Destroy j) = Ok (w', RNothing)) /\
  (exists w', step xi g w (Delete j) = Ok (w', RNothing)).
Proof.
  intros w l P F vp vf j (NPF & LP & LF & MEM & HAS & (CP & CF)) IJ. apply MEM in IJ.
  apply get_code_ok in IJ. assert (RP := CP). assert (RF := CF). apply rd_ok in RP. apply rd_ok in RF.
  cbn [step]. rewrite IJ. cbn [obind]. unfold eval, min_clone, to_momentum_space, destroy, delete, member_code.
  cbn [k_p k_f k_dims k_leg k_known k_interp rd_ptr negb fre_ptr]. rewrite RP. cbn [obind]. rewrite RF. cbn [obind].
  split; [reflexivity|]. split; [eexists; reflexivity|]. split; [eexists; reflexivity|]. split; [|eexists; reflexivity].
  assert (E1 : fre (w_heap w) F = Ok (upd (w_heap w) F None)) by (apply fre_ok; split; [exists vf; exact CF|reflexivity]).
  rewrite E1. cbn [obind].
  assert (E2 : fre (upd (w_heap w) F None) P = Ok (upd (upd (w_heap w) F None) P None)).
  { apply fre_ok. split; [|reflexivity]. exists vp. now rewrite upd_other by congruence. }
  rewrite E2. cbn [obind]. eexists. reflexivity.
Qed.

Lemma gone_use : forall w l P F vp vf j, fam_inv w (Gone l) P F vp vf -> In j l ->
  step xi g w (Eval j) = UB /\ step xi g w (MinClone j) = UB /\ step xi g w (ToMomentumSpace j) = UB /\
  step xi g w (Destroy j) = UB /\ (exists w', step xi g w (Delete j) = Ok (w', RNothing)).
Proof.
  intros w l P F vp vf j (NPF & LP & LF & MEM & HAS & (CP & CF)) IJ. apply MEM in IJ.
  apply get_code_ok in IJ.
  assert (RP : rd (w_heap w) P = UB) by (unfold rd; now rewrite CP).
  assert (RF : rd (w_heap w) F = UB) by (unfold rd; now rewrite CF).
  cbn [step]. rewrite IJ. cbn [obind]. unfold eval, min_clone, to_momentum_space, destroy, delete, member_code.
  cbn [k_p k_f k_dims k_leg k_known k_interp rd_ptr negb fre_ptr]. unfold fre. rewrite RP, RF. cbn [obind].
  repeat split; try reflexivity. eexists. reflexivity.
Qed.

(** Tables. *)
Lemma step_table : forall w c w' r j t, step xi g w c = Ok (w', r) -> nth_error (w_tables w) j = Some (Some t) -> c <> TDelete j ->
  nth_error (w_tables w') j = Some (Some t).
Proof.
  intros w c w' r j t H T N. assert (L : j < length (w_tables w)) by (apply nth_error_Some; congruence).
  apply step_inv in H. destruct c as [|i p f known|i|i|i|i|i|k|k|k].
  - destruct H as (-> & _). exact T.
  - destruct H as (k & _ & -> & _). exact T.
  - destruct H as (k & _ & _ & [(-> & _)|(p & f & _ & _ & _ & _ & _ & -> & _)]); exact T.
  - destruct H as (k & _ & _ & _ & _ & -> & _). exact T.
  - destruct H as (k & _ & _ & -> & _). exact T.
  - destruct H as (k & p & f & vp & vf & _ & _ & _ & _ & _ & _ & -> & _). exact T.
  - destruct H as (k & p & f & vp & vf & _ & _ & _ & _ & _ & -> & _). cbn [w_tables]. now rewrite nth_error_app1.
  - destruct H as (t' & _ & -> & _). exact T.
  - destruct H as (t' & vs & _ & _ & -> & _). cbn [w_tables]. now rewrite nth_error_app1.
  - destruct H as (t' & _ & ->). cbn [w_tables]. rewrite set_other; [exact T|]. congruence.
Qed.

Lemma run_table : forall cs w w' rs j t, run xi g w cs = Ok (w', rs) -> nth_error (w_tables w) j = Some (Some t) -> ~ In (TDelete j) cs ->
  nth_error (w_tables w') j = Some (Some t).
Proof.
  induction cs as [|c cs IH]; intros w w' rs j t H T N.
  - cbn in H. injection H as <- <-. exact T.
  - apply run_cons in H. destruct H as (w1 & r & rs' & S1 & H & ->).
    apply (IH _ _ _ _ _ H); [|intro X; apply N; now right]. apply (step_table _ _ _ _ _ _ S1 T). intro X. apply N. now left.
Qed.

(** An array that no object has stays. *)
Lemma run_cell_free : forall cs w w' rs q v, sound w -> run xi g w cs = Ok (w', rs) -> nth_error (w_heap w) q = Some (Some v) ->
  (forall i k, nth_error (w_codes w) i = Some (Some k) -> ~ has_array k q) -> nth_error (w_heap w') q = Some (Some v).
Proof.
  induction cs as [|c cs IH]; intros w w' rs q v SW H Q N.
  - cbn in H. injection H as <- <-. exact Q.
  - apply run_cons in H. destruct H as (w1 & r & rs' & S1 & H & ->).
    assert (L : q < length (w_heap w)) by (apply nth_error_Some; congruence).
    assert (Q1 : nth_error (w_heap w1) q = Some (Some v)).
    { destruct (step_cell _ _ _ _ _ S1 L) as [E|(_ & i & k & _ & K & HA)]; [congruence|]. exfalso. exact (N i k K HA). }
    apply (IH _ _ _ q v (step_sound _ _ _ _ SW S1) H Q1).
    intros i k K HA. apply step_inv in S1. destruct c as [|i0 p f known|i0|i0|i0|i0|i0|j|j|j].
    + destruct S1 as (-> & _). cbn [w_codes] in K. apply nth_app_last in K. destruct K as [K|(_ & E)]; [exact (N _ _ K HA)|].
      injection E as ->. unfold has_array in HA. cbn in HA. destruct HA as [X|X]; discriminate X.
    + destruct S1 as (k0 & K0 & -> & _). cbn [w_codes] in K. apply set_inv in K. destruct K as [(_ & E & _)|(_ & K)]; [|exact (N _ _ K HA)].
      injection E as ->. unfold has_array in HA. cbn [k_p k_f] in HA. destruct HA as [X|X]; injection X as X; lia.
    + destruct S1 as (k0 & K0 & _ & [(-> & _)|(p & f & KP & KF & _ & _ & _ & -> & _)]); [exact (N _ _ K HA)|].
      cbn [w_codes] in K. apply nth_app_last in K. destruct K as [K|(_ & E)]; [exact (N _ _ K HA)|].
      injection E as ->. apply (N _ _ K0). unfold has_array in *. cbn [k_p k_f] in HA. rewrite KP, KF. exact HA.
    + destruct S1 as (k0 & K0 & _ & _ & _ & -> & _). cbn [w_codes] in K. apply set_inv in K. destruct K as [(_ & E & _)|(_ & K)]; [|exact (N _ _ K HA)].
      injection E as ->. unfold has_array in HA. cbn [k_p k_f] in HA. destruct HA as [X|X]; discriminate X.
    + destruct S1 as (k0 & K0 & _ & -> & _). cbn [w_codes] in K. apply set_inv in K. destruct K as [(_ & E & _)|(_ & K)]; [discriminate E|exact (N _ _ K HA)].
    + destruct S1 as (k0 & p & f & vp & vf & _ & _ & _ & _ & _ & _ & -> & _). exact (N _ _ K HA).
    + destruct S1 as (k0 & p & f & vp & vf & _ & _ & _ & _ & _ & -> & _). exact (N _ _ K HA).
    + destruct S1 as (t & _ & -> & _). exact (N _ _ K HA).
    + destruct S1 as (t & vs & _ & _ & -> & _). exact (N _ _ K HA).
    + destruct S1 as (t & _ & ->). exact (N _ _ K HA).
Qed.
End Proofs.
