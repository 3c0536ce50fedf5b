(** Settings behave like plain values: proofs. *)
From Verif Require Import Base SettingsModel SdtModel ScalarModel SetObjModel SetObjSpec.
From Coq Require Import ZArith QArith Permutation.
Local Open Scope nat_scope.

(** * Lists *)

Lemma set_nth_length : forall {A} (l : list A) i x, length (set_nth l i x) = length l.
Proof. induction l as [|y l IH]; intros [|i] x; cbn; congruence. Qed.

Lemma set_nth_same : forall {A} (l : list A) i x y, nth_error l i = Some y ->
  nth_error (set_nth l i x) i = Some x.
Proof.
  induction l as [|z l IH]; intros [|i] x y H; cbn in *; try discriminate; eauto.
Qed.

Lemma set_nth_other : forall {A} (l : list A) i j x, i <> j ->
  nth_error (set_nth l i x) j = nth_error l j.
Proof.
  induction l as [|z l IH]; intros [|i] [|j] x H; cbn; try reflexivity; try congruence.
  apply IH. congruence.
Qed.

Lemma Forall2_nth : forall {A B} (P : A -> B -> Prop) l l' i y, Forall2 P l l' ->
  nth_error l' i = Some y -> exists x, nth_error l i = Some x /\ P x y.
Proof.
  intros A B P l l' i y F. revert i. induction F as [|a b l l' Q F IH]; intros [|i] H; cbn in *; try discriminate.
  - injection H as ->. exists a. split; [reflexivity|exact Q].
  - apply IH. exact H.
Qed.

Lemma Forall2_set : forall {A B} (P : A -> B -> Prop) l l' i x y, Forall2 P l l' -> P x y ->
  Forall2 P (set_nth l i x) (set_nth l' i y).
Proof.
  intros A B P l l' i x y F. revert i. induction F as [|a b l l' Q F IH]; intros [|i] H; cbn; constructor; auto.
Qed.

Lemma Forall2_len : forall {A B} (P : A -> B -> Prop) l l', Forall2 P l l' -> length l = length l'.
Proof. intros A B P l l' F. induction F; cbn; congruence. Qed.

(** * Owners *)

Definition ptr_of (o : sobj) : list nat := match o with OVec (Some p) _ => [p] | _ => [] end.
Definition ptrs (l : list sobj) : list nat := flat_map ptr_of l.
Definition kept (x : nat * option vdata) : list nat := match snd x with Some _ => [fst x] | None => [] end.
Definition handed (l : list nat) (h : list (option vdata)) : list nat := flat_map kept (combine l h).

Lemma ptrs_set : forall l i o x, nth_error l i = Some o ->
  Permutation (ptrs (set_nth l i x)) (ptr_of x ++ ptrs (set_nth l i OGone)).
Proof.
  induction l as [|y l IH]; intros [|i] o x H; cbn in *; try discriminate.
  - reflexivity.
  - unfold ptrs in *. cbn. rewrite (IH i o x H). rewrite !app_assoc. apply Permutation_app_tail, Permutation_app_comm.
Qed.

Lemma set_nth_id : forall {A} (l : list A) i x, nth_error l i = Some x -> set_nth l i x = l.
Proof.
  induction l as [|y l IH]; intros [|i] x H; cbn in *; try discriminate.
  - congruence.
  - f_equal. apply IH. exact H.
Qed.

Lemma ptrs_take : forall l i o, nth_error l i = Some o ->
  Permutation (ptrs l) (ptr_of o ++ ptrs (set_nth l i OGone)).
Proof.
  intros l i o H. rewrite <- (set_nth_id l i o H) at 1. apply (ptrs_set l i o o H).
Qed.

Lemma handed_take : forall l h v p d, nth_error l v = Some p -> nth_error h v = Some (Some d) ->
  Permutation (handed l h) (p :: handed l (set_nth h v None)).
Proof.
  induction l as [|q l IH]; intros [|y h] [|v] p d H1 H2; cbn in *; try discriminate.
  - injection H1 as ->. injection H2 as ->. reflexivity.
  - unfold handed in *. cbn. rewrite (IH h v p d H1 H2). apply Permutation_sym, Permutation_middle.
Qed.

Lemma handed_add : forall l h p d, length l = length h -> handed (l ++ [p]) (h ++ [Some d]) = handed l h ++ [p].
Proof.
  induction l as [|q l IH]; intros [|y h] p d E; cbn in *; try discriminate.
  - reflexivity.
  - unfold handed in *. cbn. rewrite IH by congruence. apply app_assoc.
Qed.

(** * The relation *)

Definition holds (h : list cell) (p : nat) (d : vdata) : Prop := nth_error h p = Some (mkcell d true).

Definition obj_ok (h : list cell) (o : sobj) (s : shown) : Prop :=
  match s with
  | Gone => o = OGone
  | Script n v t => o = OScript n v t
  | Vec None t => o = OVec None t
  | Vec (Some d) t => exists p, o = OVec (Some p) t /\ holds h p d
  end.
Definition hand_ok (h : list cell) (p : nat) (x : option vdata) : Prop :=
  match x with Some d => holds h p d | None => True end.

Definition own (w : world) (a : plain) : list nat := handed (w_hand w) (hand a) ++ ptrs (w_objs w).

Record rel (w : world) (a : plain) : Prop := mkrel {
  r_hand : Forall2 (hand_ok (w_heap w)) (w_hand w) (hand a);
  r_objs : Forall2 (obj_ok (w_heap w)) (w_objs w) (objs a);
  r_dup : NoDup (own w a);
  r_live : forall p, (exists d, holds (w_heap w) p d) <-> In p (own w a) }.

Definition agree (h h' : list cell) (l : list nat) : Prop := forall p, In p l -> nth_error h' p = nth_error h p.

Lemma objs_agree : forall h h' l l', Forall2 (obj_ok h) l l' -> agree h h' (ptrs l) -> Forall2 (obj_ok h') l l'.
Proof.
  intros h h' l l' F. induction F as [|o s l l' P F IH]; intro G; constructor.
  - destruct s as [|n v t|[d|] t]; cbn in *; try exact P.
    destruct P as (p & -> & Q). exists p. split; [reflexivity|]. unfold holds in *.
    rewrite G; [exact Q|]. unfold ptrs. cbn. left. reflexivity.
  - apply IH. intros p I. apply G. unfold ptrs in *. cbn. apply in_or_app. right. exact I.
Qed.

Lemma hand_agree : forall h h' l l', Forall2 (hand_ok h) l l' -> agree h h' (handed l l') -> Forall2 (hand_ok h') l l'.
Proof.
  intros h h' l l' F. induction F as [|o s l l' P F IH]; intro G; constructor.
  - destruct s as [d|]; cbn in *; [|exact P]. unfold holds in *. rewrite G; [exact P|].
    unfold handed. cbn. left. reflexivity.
  - apply IH. intros p I. apply G. unfold handed in *. cbn. apply in_or_app. right. exact I.
Qed.

Lemma hand_none : forall h l l' v, Forall2 (hand_ok h) l l' -> Forall2 (hand_ok h) l (set_nth l' v None).
Proof.
  intros h l l' v F. revert v. induction F as [|o s l l' P F IH]; intros [|v]; cbn; constructor; auto.
  exact Logic.I.
Qed.

Lemma holds_app : forall h c p d, holds h p d -> holds (h ++ [c]) p d.
Proof.
  intros h c p d H. unfold holds in *. rewrite nth_error_app1; [exact H|]. apply nth_error_Some. congruence.
Qed.
Lemma holds_new : forall h d, holds (h ++ [mkcell d true]) (length h) d.
Proof. intros h d. unfold holds. rewrite nth_error_app2, Nat.sub_diag by lia. reflexivity. Qed.
Lemma holds_app_inv : forall h c p d, holds (h ++ [c]) p d -> holds h p d \/ (p = length h /\ c = mkcell d true).
Proof.
  intros h c p d H. unfold holds in *. destruct (Nat.lt_ge_cases p (length h)) as [L|L].
  - left. rewrite nth_error_app1 in H by exact L. exact H.
  - right. rewrite nth_error_app2 in H by exact L.
    destruct (p - length h)%nat as [|k] eqn:E; cbn in H.
    + split; [lia|]. congruence.
    + destruct k; discriminate.
Qed.
Lemma holds_fun : forall h p d d', holds h p d -> holds h p d' -> d = d'.
Proof. intros h p d d' A B. unfold holds in *. rewrite A in B. injection B as ->. reflexivity. Qed.

Lemma agree_app : forall h c l, (forall p, In p l -> exists d, holds h p d) -> agree h (h ++ [c]) l.
Proof.
  intros h c l H p I. destruct (H p I) as [d Q]. unfold holds in Q. rewrite nth_error_app1; [reflexivity|].
  apply nth_error_Some. congruence.
Qed.

Lemma own_live : forall w a p, rel w a -> In p (own w a) -> exists d, holds (w_heap w) p d.
Proof. intros w a p H I. apply (r_live w a H). exact I. Qed.
Lemma own_lt : forall w a p, rel w a -> In p (own w a) -> p < length (w_heap w).
Proof.
  intros w a p H I. destruct (own_live w a p H I) as [d Q]. apply nth_error_Some. unfold holds in Q. congruence.
Qed.

Lemma free_ok : forall h p d, holds h p d -> free h p = Ok (set_nth h p (mkcell d false)).
Proof. intros h p d H. unfold free. unfold holds in H. rewrite H. reflexivity. Qed.

Lemma holds_freed : forall h p d q e, holds h p d ->
  (holds (set_nth h p (mkcell d false)) q e <-> holds h q e /\ q <> p).
Proof.
  intros h p d q e H. unfold holds in *. destruct (Nat.eq_dec q p) as [->|N].
  - rewrite (set_nth_same h p _ _ H). split; [discriminate|]. intros [_ X]. congruence.
  - rewrite set_nth_other by congruence. tauto.
Qed.

Lemma agree_freed : forall h p d l, ~ In p l -> agree h (set_nth h p (mkcell d false)) l.
Proof. intros h p d l N q I. apply set_nth_other. intro E. subst. contradiction. Qed.

(** Changes of the owners that keep the relation. *)
Lemma rel_intro : forall h hd hs os os', 
  Forall2 (hand_ok h) hd hs -> Forall2 (obj_ok h) os os' ->
  forall l, Permutation (handed hd hs ++ ptrs os) l -> NoDup l ->
  (forall p, (exists d, holds h p d) <-> In p l) ->
  rel (mkworld h hd os) (mkplain hs os').
Proof.
  intros h hd hs os os' F1 F2 l P D L. constructor; cbn [w_heap w_hand w_objs hand objs]; auto.
  - unfold own; cbn [w_heap w_hand w_objs hand objs]. apply (Permutation_NoDup (Permutation_sym P)). exact D.
  - intro p. rewrite L. unfold own; cbn [w_heap w_hand w_objs hand objs]. split; intro I.
    + apply (Permutation_in p (Permutation_sym P)). exact I.
    + apply (Permutation_in p P). exact I.
Qed.

(** Replacing an object that owns nothing or keeps its vector, without touching the heap. *)
Lemma rel_same : forall w a i o s o' s', rel w a -> nth_error (w_objs w) i = Some o ->
  nth_error (objs a) i = Some s -> obj_ok (w_heap w) o' s' -> ptr_of o' = ptr_of o ->
  rel (mkworld (w_heap w) (w_hand w) (set_nth (w_objs w) i o')) (mkplain (hand a) (set_nth (objs a) i s')).
Proof.
  intros w a i o s o' s' H E E' O P. destruct H as [A B C D].
  apply (rel_intro _ _ _ _ _ A) with (l := own w a); auto.
  - apply Forall2_set; assumption.
  - unfold own. apply Permutation_app_head. rewrite (ptrs_set _ _ _ o' E), P.
    symmetry. apply ptrs_take. exact E.
Qed.

(** A new object that owns nothing. *)
Lemma rel_new : forall w a o s, rel w a -> obj_ok (w_heap w) o s -> ptr_of o = [] ->
  rel (mkworld (w_heap w) (w_hand w) (w_objs w ++ [o])) (mkplain (hand a) (objs a ++ [s])).
Proof.
  intros w a o s H O P. destruct H as [A B C D].
  apply (rel_intro _ _ _ _ _ A) with (l := own w a); auto.
  - apply Forall2_app; [exact B|]. constructor; [exact O|constructor].
  - unfold own, ptrs. rewrite flat_map_app. cbn. rewrite P, !app_nil_r. reflexivity.
Qed.

(** The object [i] loses its vector, if it has one. *)
Lemma rel_drop : forall w a i o s o' s', rel w a -> nth_error (w_objs w) i = Some o ->
  nth_error (objs a) i = Some s -> ptr_of o' = [] -> (forall h, obj_ok h o' s') ->
  exists h, destroy (w_heap w) o = Ok h /\
    rel (mkworld h (w_hand w) (set_nth (w_objs w) i o')) (mkplain (hand a) (set_nth (objs a) i s')).
Proof.
  intros w a i o s o' s' H E E' P O.
  destruct (ptr_of o) as [|p [|? ?]] eqn:EP.
  - exists (w_heap w). split.
    + destruct o as [| |[q|] t]; cbn in *; try reflexivity; discriminate.
    + apply (rel_same w a i o s); auto. congruence.
  - assert (o = OVec (Some p) (match o with OVec _ t => t | _ => false end)) as EO.
    { destruct o as [| |[q|] t]; cbn in EP; try discriminate. injection EP as ->. reflexivity. }
    set (t := match o with OVec _ t => t | _ => false end) in *. clearbody t.
    assert (In p (own w a)) as IP.
    { unfold own. apply in_or_app. right. apply (Permutation_in p (Permutation_sym (ptrs_take _ _ _ E))).
      rewrite EP. left. reflexivity. }
    destruct (own_live w a p H IP) as [d Q].
    exists (set_nth (w_heap w) p (mkcell d false)). split.
    { rewrite EO. cbn. apply free_ok. exact Q. }
    destruct H as [A B C D].
    assert (Permutation (own w a) (p :: handed (w_hand w) (hand a) ++ ptrs (set_nth (w_objs w) i OGone))) as PM.
    { unfold own. rewrite (ptrs_take _ _ _ E), EP. cbn. apply Permutation_sym, Permutation_middle. }
    assert (NoDup (p :: handed (w_hand w) (hand a) ++ ptrs (set_nth (w_objs w) i OGone))) as ND
      by (apply (Permutation_NoDup PM C)).
    apply NoDup_cons_iff in ND as [NI ND].
    assert (Permutation (ptrs (set_nth (w_objs w) i o')) (ptrs (set_nth (w_objs w) i OGone))) as PO.
    { rewrite (ptrs_set _ _ _ o' E), P. reflexivity. }
    apply rel_intro with (l := handed (w_hand w) (hand a) ++ ptrs (set_nth (w_objs w) i OGone)); auto.
    + apply (hand_agree (w_heap w)); [exact A|]. apply agree_freed. intro X. apply NI. apply in_or_app. left. exact X.
    + apply (objs_agree (w_heap w)).
      * apply Forall2_set; auto.
      * apply agree_freed. intro X. apply NI. apply in_or_app. right. apply (Permutation_in p PO X).
    + apply Permutation_app_head. exact PO.
    + intro q. split.
      * intros (e & X). apply (holds_freed _ _ d) in X; [|exact Q]. destruct X as [X N].
        assert (In q (own w a)) as IQ by (apply D; exists e; exact X).
        apply (Permutation_in q PM) in IQ. destruct IQ as [->|IQ]; [congruence|exact IQ].
      * intro X. assert (In q (own w a)) as IQ.
        { apply (Permutation_in q (Permutation_sym PM)). right. exact X. }
        apply D in IQ as [e IQ]. exists e. apply (holds_freed _ _ d); [exact Q|]. split; [exact IQ|].
        intro. subst. contradiction.
  - destruct o as [| |[q|] t]; cbn in EP; discriminate.
Qed.

(** An object without a vector takes one from the caller. *)
Lemma rel_take : forall w a i o s v p d t, rel w a -> nth_error (w_objs w) i = Some o ->
  nth_error (objs a) i = Some s -> ptr_of o = [] ->
  nth_error (w_hand w) v = Some p -> nth_error (hand a) v = Some (Some d) ->
  rel (mkworld (w_heap w) (w_hand w) (set_nth (w_objs w) i (OVec (Some p) t)))
      (mkplain (set_nth (hand a) v None) (set_nth (objs a) i (Vec (Some d) t))).
Proof.
  intros w a i o s v p d t [A B C D] E E' P V V'.
  assert (holds (w_heap w) p d) as Q.
  { destruct (Forall2_nth _ _ _ _ _ A V') as (p' & X & Y). cbn in Y. congruence. }
  apply rel_intro with (l := own w a); auto.
  - apply hand_none. exact A.
  - apply Forall2_set; [exact B|]. exists p. split; [reflexivity|exact Q].
  - unfold own. rewrite (handed_take _ _ _ _ _ V V'). rewrite (ptrs_set _ _ _ (OVec (Some p) t) E).
    rewrite (ptrs_take _ _ _ E), P. cbn. apply Permutation_sym, Permutation_middle.
Qed.

(** A new object takes a vector from the caller. *)
Lemma rel_new_take : forall w a v p d t, rel w a ->
  nth_error (w_hand w) v = Some p -> nth_error (hand a) v = Some (Some d) ->
  rel (mkworld (w_heap w) (w_hand w) (w_objs w ++ [OVec (Some p) t]))
      (mkplain (set_nth (hand a) v None) (objs a ++ [Vec (Some d) t])).
Proof.
  intros w a v p d t [A B C D] V V'.
  assert (holds (w_heap w) p d) as Q.
  { destruct (Forall2_nth _ _ _ _ _ A V') as (p' & X & Y). cbn in Y. congruence. }
  apply rel_intro with (l := own w a); auto.
  - apply hand_none. exact A.
  - apply Forall2_app; [exact B|]. constructor; [|constructor]. exists p. split; [reflexivity|exact Q].
  - unfold own. rewrite (handed_take _ _ _ _ _ V V'). unfold ptrs. rewrite flat_map_app. cbn.
    apply Permutation_sym. rewrite app_assoc. apply Permutation_cons_append.
Qed.

(** The caller makes a vector. *)
Lemma rel_vec : forall w a d, rel w a ->
  rel (mkworld (w_heap w ++ [mkcell d true]) (w_hand w ++ [length (w_heap w)]) (w_objs w))
      (mkplain (hand a ++ [Some d]) (objs a)).
Proof.
  intros w a d H. pose proof H as [A B C D].
  assert (forall p, In p (own w a) -> exists d, holds (w_heap w) p d) as G by (intros p I; apply D; exact I).
  assert (agree (w_heap w) (w_heap w ++ [mkcell d true]) (handed (w_hand w) (hand a))) as G1.
  { apply agree_app. intros p I. apply G. apply in_or_app. left. exact I. }
  assert (agree (w_heap w) (w_heap w ++ [mkcell d true]) (ptrs (w_objs w))) as G2.
  { apply agree_app. intros p I. apply G. apply in_or_app. right. exact I. }
  apply rel_intro with (l := length (w_heap w) :: own w a).
  - apply Forall2_app; [apply (hand_agree (w_heap w)); assumption|]. constructor; [|constructor]. apply holds_new.
  - apply (objs_agree (w_heap w)); assumption.
  - rewrite handed_add by (apply (Forall2_len _ _ _ A)). unfold own. rewrite <- app_assoc. cbn.
    apply Permutation_sym, Permutation_middle.
  - constructor; [|exact C]. intro I. apply (own_lt w a _ H) in I. lia.
  - intro p. split.
    + intros (e & X). apply holds_app_inv in X. destruct X as [X|[-> _]]; [|left; reflexivity].
      right. apply D. exists e. exact X.
    + intros [<-|I]; [exists d; apply holds_new|]. apply D in I as [e I]. exists e. apply holds_app. exact I.
Qed.

(** The caller deletes a vector. *)
Lemma rel_unvec : forall w a v p d, rel w a ->
  nth_error (w_hand w) v = Some p -> nth_error (hand a) v = Some (Some d) ->
  exists h, free (w_heap w) p = Ok h /\
    rel (mkworld h (w_hand w) (w_objs w)) (mkplain (set_nth (hand a) v None) (objs a)).
Proof.
  intros w a v p d [A B C D] V V'.
  assert (holds (w_heap w) p d) as Q.
  { destruct (Forall2_nth _ _ _ _ _ A V') as (p' & X & Y). cbn in Y. congruence. }
  exists (set_nth (w_heap w) p (mkcell d false)). split; [apply free_ok; exact Q|].
  assert (Permutation (own w a) (p :: handed (w_hand w) (set_nth (hand a) v None) ++ ptrs (w_objs w))) as PM.
  { unfold own. rewrite (handed_take _ _ _ _ _ V V'). reflexivity. }
  pose proof (Permutation_NoDup PM C) as ND. apply NoDup_cons_iff in ND as [NI ND].
  apply rel_intro with (l := handed (w_hand w) (set_nth (hand a) v None) ++ ptrs (w_objs w)); auto.
  - apply (hand_agree (w_heap w)); [apply hand_none; exact A|]. apply agree_freed. intro X. apply NI.
    apply in_or_app. left. exact X.
  - apply (objs_agree (w_heap w)); [exact B|]. apply agree_freed. intro X. apply NI.
    apply in_or_app. right. exact X.
  - intro q. split.
    + intros (e & X). apply (holds_freed _ _ d) in X; [|exact Q]. destruct X as [X N].
      assert (In q (own w a)) as IQ by (apply D; exists e; exact X).
      apply (Permutation_in q PM) in IQ. destruct IQ as [->|IQ]; [congruence|exact IQ].
    + intro X. assert (In q (own w a)) as IQ.
      { apply (Permutation_in q (Permutation_sym PM)). right. exact X. }
      apply D in IQ as [e IQ]. exists e. apply (holds_freed _ _ d); [exact Q|]. split; [exact IQ|].
      intro. subst. contradiction.
Qed.

(** A new object with a new vector. *)
Lemma rel_new_own : forall w a d t, rel w a ->
  rel (mkworld (w_heap w ++ [mkcell d true]) (w_hand w) (w_objs w ++ [OVec (Some (length (w_heap w))) t]))
      (mkplain (hand a) (objs a ++ [Vec (Some d) t])).
Proof.
  intros w a d t H. pose proof (rel_vec w a d H) as G. destruct H as [A B C D].
  assert (length (w_hand w) = length (hand a)) as LH by (apply (Forall2_len _ _ _ A)).
  pose proof (rel_new_take _ _ (length (w_hand w)) (length (w_heap w)) d t G) as X.
  cbn [w_heap w_hand w_objs hand objs] in X.
  rewrite nth_error_app2, Nat.sub_diag in X by lia. cbn [nth_error] in X.
  rewrite LH, nth_error_app2, Nat.sub_diag in X by lia. cbn [nth_error] in X.
  specialize (X eq_refl eq_refl). destruct X as [A' B' C' D'].
  cbn [w_heap w_hand w_objs hand objs] in *.
  assert (set_nth (hand a ++ [Some d]) (length (hand a)) None = hand a ++ [None]) as ES.
  { clear. induction (hand a) as [|x l IH]; cbn; congruence. }
  assert (handed (w_hand w ++ [length (w_heap w)]) (hand a ++ [None]) = handed (w_hand w) (hand a)) as EH.
  { revert LH. clear. generalize (hand a). induction (w_hand w) as [|x l IH]; intros [|y m] L; cbn in *; try discriminate.
    - reflexivity.
    - unfold handed in *. cbn. rewrite IH by congruence. reflexivity. }
  unfold own in C', D'. cbn [w_heap w_hand w_objs hand objs] in C', D'. rewrite ES, EH in *.
  constructor; cbn [w_heap w_hand w_objs hand objs]; auto.
  apply (hand_agree (w_heap w)); [exact A|]. apply agree_app. intros p I. apply D. apply in_or_app. left. exact I.
Qed.

(** An object without a vector gets a new one. *)
Lemma rel_own : forall w a i o s d t, rel w a -> nth_error (w_objs w) i = Some o ->
  nth_error (objs a) i = Some s -> ptr_of o = [] ->
  rel (mkworld (w_heap w ++ [mkcell d true]) (w_hand w) (set_nth (w_objs w) i (OVec (Some (length (w_heap w))) t)))
      (mkplain (hand a) (set_nth (objs a) i (Vec (Some d) t))).
Proof.
  intros w a i o s d t H E E' P. pose proof H as [A B C D].
  assert (agree (w_heap w) (w_heap w ++ [mkcell d true]) (handed (w_hand w) (hand a))) as G1.
  { apply agree_app. intros p I. apply D. apply in_or_app. left. exact I. }
  assert (agree (w_heap w) (w_heap w ++ [mkcell d true]) (ptrs (w_objs w))) as G2.
  { apply agree_app. intros p I. apply D. apply in_or_app. right. exact I. }
  apply rel_intro with (l := length (w_heap w) :: own w a).
  - apply (hand_agree (w_heap w)); assumption.
  - apply Forall2_set; [apply (objs_agree (w_heap w)); assumption|]. exists (length (w_heap w)).
    split; [reflexivity|apply holds_new].
  - unfold own. rewrite (ptrs_set _ _ _ (OVec (Some (length (w_heap w))) t) E), (ptrs_take _ _ _ E), P. cbn.
    apply Permutation_sym, Permutation_middle.
  - constructor; [|exact C]. intro I. apply (own_lt w a _ H) in I. lia.
  - intro p. split.
    + intros (e & X). apply holds_app_inv in X. destruct X as [X|[-> _]]; [|left; reflexivity].
      right. apply D. exists e. exact X.
    + intros [<-|I]; [exists d; apply holds_new|]. apply D in I as [e I]. exists e. apply holds_app. exact I.
Qed.
