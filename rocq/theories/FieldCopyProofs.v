From Coq Require Import Lia.
From Verif Require Import Base FieldOwnModel FieldOwnSpec FieldOwnProofs FieldOwnProofs2 FieldCopyModel FieldCopySpec.

Section Proofs.
Variable A : Type.

Lemma kill_same : forall l b, b < length l -> nth_error (kill l b) b = Some false.
Proof. induction l as [|y l IH]; intros [|b] H; cbn in *; try lia; [reflexivity|]. apply IH. lia. Qed.

Lemma kill_other : forall l b b', b <> b' -> nth_error (kill l b) b' = nth_error l b'.
Proof. induction l as [|y l IH]; intros [|b] [|b'] H; cbn; try reflexivity; [congruence|]. apply IH. congruence. Qed.

Lemma kill_length : forall l b, length (kill l b) = length l.
Proof. induction l as [|y l IH]; intros [|b]; cbn; try reflexivity. now rewrite IH. Qed.

Lemma drop_length : forall (l : list (option (nfield A))) i, length (drop l i) = length l.
Proof. induction l as [|y l IH]; intros [|b]; cbn; try reflexivity. now rewrite IH. Qed.

Lemma nth_app_keep : forall T (l m : list T) i x, nth_error l i = Some x -> nth_error (l ++ m) i = Some x.
Proof. intros T l m i x H. rewrite nth_error_app1; [exact H|]. apply nth_error_Some. congruence. Qed.

Lemma nth_last : forall T (l : list T) x i y, nth_error (l ++ [x]) i = Some y -> nth_error l i = Some y \/ (i = length l /\ y = x).
Proof.
  intros T l x i y H. destruct (Nat.lt_ge_cases i (length l)) as [L|L].
  - left. now rewrite nth_error_app1 in H by exact L.
  - rewrite nth_error_app2 in H by exact L. destruct (i - length l) as [|n] eqn:E.
    + injection H as ->. right. split; [lia|reflexivity].
    + destruct n; discriminate H.
Qed.

Lemma buffer_ok : forall (c : cworld A) i b, buffer c i = Ok b <-> nth_error (c_buf c) i = Some b /\ nth_error (c_live c) b = Some true.
Proof.
  intros c i b. unfold buffer. destruct (nth_error (c_buf c) i) as [b0|]; [|split; [discriminate|intros (X & _); discriminate X]].
  destruct (nth_error (c_live c) b0) as [[|]|] eqn:L; split; intro H; try discriminate H;
    try (injection H as <-; split; [reflexivity|exact L]); destruct H as (X & Y); injection X as <-; congruence.
Qed.

Lemma buffer_throw : forall (c : cworld A) i, buffer c i <> Throw.
Proof. intros c i. unfold buffer. destruct (nth_error (c_buf c) i); [destruct (nth_error (c_live c) n) as [[|]|]|]; discriminate. Qed.

Lemma buffer_dead : forall (c : cworld A) i b, nth_error (c_buf c) i = Some b -> nth_error (c_live c) b = Some false -> buffer c i = UB.
Proof. intros c i b H L. unfold buffer. now rewrite H, L. Qed.

(** What a call does to fields and buffers. *)
Lemma cstep_inv : forall (e : A) c k c' r, cstep e c k = Ok (c', r) ->
  match k with
  | CCopy i => exists o b, exists_field (c_base c) i o /\ nth_error (c_buf c) i = Some b /\
      c' = mkC (mkW (w_heap (c_base c)) (w_objs (c_base c) ++ [Some o])) (c_live c) (c_buf c ++ [b]) /\
      r = RField (length (w_objs (c_base c)))
  | CCall (Delete i) => exists b w', nth_error (c_buf c) i = Some b /\ nth_error (c_live c) b = Some true /\
      step e (c_base c) (Delete i) = Ok (w', r) /\ c' = mkC w' (kill (c_live c) b) (c_buf c)
  | CCall (MakeField a) => exists w', step e (c_base c) (MakeField a) = Ok (w', r) /\
      c' = mkC w' (c_live c ++ [true]) (c_buf c ++ [length (c_live c)])
  | CCall (Clone i) => exists w', step e (c_base c) (Clone i) = Ok (w', r) /\
      c' = mkC w' (c_live c ++ [true]) (c_buf c ++ [length (c_live c)])
  | CCall (Evaluate i) => exists b w', nth_error (c_buf c) i = Some b /\ nth_error (c_live c) b = Some true /\
      step e (c_base c) (Evaluate i) = Ok (w', r) /\ c' = mkC w' (c_live c) (c_buf c)
  | CCall d => exists w', step e (c_base c) d = Ok (w', r) /\ c' = mkC w' (c_live c) (c_buf c)
  end.
Proof.
  intros e c k c' r H.
  assert (forall (x : outcome (world A * result A)) f, obind x f = Ok (c', r) -> exists w' r', x = Ok (w', r') /\ f (w', r') = Ok (c', r)) as OB.
  { intros [[w' r']| |] f Q; try discriminate Q. exists w', r'. split; [reflexivity|exact Q]. }
  destruct k as [d|i].
  - destruct d as [v|p|p v|a|i|i|i|i]; cbn [cstep] in H.
    + apply OB in H. destruct H as (w' & r' & S1 & Q). injection Q as <- <-. exists w'. split; [exact S1|reflexivity].
    + apply OB in H. destruct H as (w' & r' & S1 & Q). injection Q as <- <-. exists w'. split; [exact S1|reflexivity].
    + apply OB in H. destruct H as (w' & r' & S1 & Q). injection Q as <- <-. exists w'. split; [exact S1|reflexivity].
    + apply OB in H. destruct H as (w' & r' & S1 & Q). injection Q as <- <-. exists w'. split; [exact S1|reflexivity].
    + apply OB in H. destruct H as (w' & r' & S1 & Q). injection Q as <- <-. exists w'. split; [exact S1|reflexivity].
    + destruct (buffer c i) as [b| |] eqn:B; cbn [obind] in H; try discriminate H. apply buffer_ok in B. destruct B as (B1 & B2).
      apply OB in H. destruct H as (w' & r' & S1 & Q). injection Q as <- <-. exists b, w'. repeat split; assumption.
    + apply OB in H. destruct H as (w' & r' & S1 & Q). injection Q as <- <-. exists w'. split; [exact S1|reflexivity].
    + destruct (buffer c i) as [b| |] eqn:B; cbn [obind] in H; try discriminate H. apply buffer_ok in B. destruct B as (B1 & B2).
      apply OB in H. destruct H as (w' & r' & S1 & Q). injection Q as <- <-. exists b, w'. repeat split; assumption.
  - cbn [cstep] in H. destruct (object (c_base c) i) as [o| |] eqn:O; cbn [obind] in H; try discriminate H. apply object_ok in O.
    destruct (nth_error (c_buf c) i) as [b|] eqn:B; [|discriminate H]. injection H as <- <-.
    exists o, b. repeat split; assumption || reflexivity.
Qed.

(** The three things that can happen: nothing to fields and buffers, one more field, one less. *)
Inductive change (c c' : cworld A) : Prop :=
| Stay : w_objs (c_base c') = w_objs (c_base c) -> c_live c' = c_live c -> c_buf c' = c_buf c -> change c c'
| More : forall o, w_objs (c_base c') = w_objs (c_base c) ++ [Some o] -> c_live c' = c_live c ++ [true] ->
    c_buf c' = c_buf c ++ [length (c_live c)] -> change c c'
| Share : forall i o b, nth_error (w_objs (c_base c)) i = Some (Some o) -> nth_error (c_buf c) i = Some b ->
    w_objs (c_base c') = w_objs (c_base c) ++ [Some o] -> c_live c' = c_live c -> c_buf c' = c_buf c ++ [b] -> change c c'
| Less : forall i o b, nth_error (w_objs (c_base c)) i = Some (Some o) -> nth_error (c_buf c) i = Some b ->
    nth_error (c_live c) b = Some true -> w_objs (c_base c') = drop (w_objs (c_base c)) i ->
    c_live c' = kill (c_live c) b -> c_buf c' = c_buf c -> change c c'.

Lemma cstep_change : forall (e : A) c k c' r, cstep e c k = Ok (c', r) -> change c c'.
Proof.
  intros e c k c' r H. apply cstep_inv in H. destruct k as [d|i].
  - destruct d as [v|p|p v|a|i|i|i|i].
    + destruct H as (w' & S1 & ->). apply step_inv in S1. destruct S1 as (-> & _). apply Stay; reflexivity.
    + destruct H as (w' & S1 & ->). apply step_inv in S1. destruct S1 as (_ & ->). apply Stay; reflexivity.
    + destruct H as (w' & S1 & ->). apply step_inv in S1. destruct S1 as (_ & ->). apply Stay; reflexivity.
    + destruct H as (w' & S1 & ->). apply step_inv in S1. destruct S1 as (o & _ & -> & _). apply (More _ _ o); reflexivity.
    + destruct H as (w' & S1 & ->). apply step_inv in S1. destruct S1 as (o & h' & o' & _ & _ & -> & _). apply (More _ _ o'); reflexivity.
    + destruct H as (b & w' & _ & _ & S1 & ->). apply step_inv in S1. destruct S1 as (o & _ & -> & _). apply Stay; reflexivity.
    + destruct H as (w' & S1 & ->). apply step_inv in S1. destruct S1 as (o & vs & _ & _ & -> & _). apply Stay; reflexivity.
    + destruct H as (b & w' & B1 & B2 & S1 & ->). apply step_inv in S1. destruct S1 as (o & h' & E & _ & ->).
      apply (Less _ _ i o b); try assumption; reflexivity.
  - destruct H as (o & b & E & B & -> & _). apply (Share _ _ i o b); try assumption; reflexivity.
Qed.

(** Every field has a pair of buffers; those of a deleted field are gone; and no two deleted
    fields had the same ones. *)
Definition kept (c : cworld A) : Prop :=
  length (c_buf c) = length (w_objs (c_base c)) /\
  (forall i b, nth_error (c_buf c) i = Some b -> b < length (c_live c)) /\
  (forall i b, deleted c i -> nth_error (c_buf c) i = Some b -> nth_error (c_live c) b = Some false) /\
  (forall i j b, deleted c i -> deleted c j -> nth_error (c_buf c) i = Some b -> nth_error (c_buf c) j = Some b -> i = j).

Lemma kept_start : forall h, kept (cstart h).
Proof.
  intro h. unfold kept, deleted, cstart. cbn [c_buf c_live c_base w_objs]. repeat split; try reflexivity;
    intros [|i]; intros; cbn in *; discriminate.
Qed.

Lemma kept_change : forall c c', kept c -> change c c' -> kept c'.
Proof.
  intros c c' (K1 & K2 & K3 & K4) Ch. unfold kept, deleted in *. destruct Ch as [E1 E2 E3|o E1 E2 E3|i o b H1 H2 E1 E2 E3|i o b H1 H2 H3 E1 E2 E3]; rewrite E1, E2, E3.
  - repeat split; assumption.
  - repeat split.
    + rewrite !app_length. cbn. lia.
    + intros j bj Hj. rewrite app_length. cbn. apply nth_last in Hj. destruct Hj as [Hj|(_ & ->)]; [apply K2 in Hj; lia|lia].
    + intros j bj Dj Hj. apply nth_last in Dj. destruct Dj as [Dj|(_ & X)]; [|discriminate X].
      apply nth_last in Hj. destruct Hj as [Hj|(-> & _)].
      * apply nth_app_keep. exact (K3 j bj Dj Hj).
      * exfalso. assert (nth_error (w_objs (c_base c)) (length (c_buf c)) = None) by (apply nth_error_None; lia). congruence.
    + intros i j b Di Dj Hi Hj. apply nth_last in Di. destruct Di as [Di|(_ & X)]; [|discriminate X].
      apply nth_last in Dj. destruct Dj as [Dj|(_ & X)]; [|discriminate X].
      assert (i < length (c_buf c)) as Li by (rewrite K1; apply nth_error_Some; congruence).
      assert (j < length (c_buf c)) as Lj by (rewrite K1; apply nth_error_Some; congruence).
      rewrite nth_error_app1 in Hi, Hj by assumption. exact (K4 i j b Di Dj Hi Hj).
  - repeat split.
    + rewrite !app_length. cbn. lia.
    + intros j bj Hj. apply nth_last in Hj. destruct Hj as [Hj|(_ & ->)]; [exact (K2 _ _ Hj)|exact (K2 _ _ H2)].
    + intros j bj Dj Hj. apply nth_last in Dj. destruct Dj as [Dj|(_ & X)]; [|discriminate X].
      assert (j < length (c_buf c)) as Lj by (rewrite K1; apply nth_error_Some; congruence).
      rewrite nth_error_app1 in Hj by assumption. exact (K3 j bj Dj Hj).
    + intros i' j b' Di Dj Hi Hj. apply nth_last in Di. destruct Di as [Di|(_ & X)]; [|discriminate X].
      apply nth_last in Dj. destruct Dj as [Dj|(_ & X)]; [|discriminate X].
      assert (i' < length (c_buf c)) as Li by (rewrite K1; apply nth_error_Some; congruence).
      assert (j < length (c_buf c)) as Lj by (rewrite K1; apply nth_error_Some; congruence).
      rewrite nth_error_app1 in Hi, Hj by assumption. exact (K4 i' j b' Di Dj Hi Hj).
  - repeat split.
    + rewrite drop_length. exact K1.
    + intros j bj Hj. rewrite kill_length. exact (K2 _ _ Hj).
    + intros j bj Dj Hj. destruct (Nat.eq_dec b bj) as [<-|N]; [apply kill_same; exact (K2 _ _ H2)|].
      rewrite kill_other by exact N. destruct (Nat.eq_dec i j) as [<-|Nj]; [congruence|].
      rewrite drop_other in Dj by exact Nj. exact (K3 j bj Dj Hj).
    + intros j1 j2 bj D1 D2 B1 B2. destruct (Nat.eq_dec i j1) as [<-|N1], (Nat.eq_dec i j2) as [<-|N2].
      * reflexivity.
      * rewrite drop_other in D2 by exact N2. pose proof (K3 j2 bj D2 B2). congruence.
      * rewrite drop_other in D1 by exact N1. pose proof (K3 j1 bj D1 B1). congruence.
      * rewrite drop_other in D1, D2 by assumption. exact (K4 j1 j2 bj D1 D2 B1 B2).
Qed.

Lemma crun_ind : forall (e : A) (P : cworld A -> Prop), (forall c c', P c -> change c c' -> P c') ->
  forall ks c c', P c -> crun e c ks = Ok c' -> P c'.
Proof.
  intros e P HP ks. induction ks as [|k ks IH]; intros c c' H Q; cbn [crun] in Q; [injection Q as <-; exact H|].
  destruct (cstep e c k) as [[c1 r]| |] eqn:S1; [|exact (IH _ _ H Q)|discriminate Q].
  apply (IH c1 c'); [|exact Q]. apply (HP c c1 H). exact (cstep_change _ _ _ _ _ S1).
Qed.

(** [k] shares the buffers of [i], and where both exist they are the same object. *)
Definition twins (i k : nat) (c : cworld A) : Prop :=
  i <> k /\ exists b o, nth_error (c_buf c) i = Some b /\ nth_error (c_buf c) k = Some b /\
    (nth_error (w_objs (c_base c)) i = Some (Some o) \/ deleted c i) /\
    (nth_error (w_objs (c_base c)) k = Some (Some o) \/ deleted c k).

Lemma twins_change : forall i k c c', twins i k c -> change c c' -> twins i k c'.
Proof.
  intros i k c c' (N & b & o & B1 & B2 & O1 & O2) Ch. split; [exact N|]. exists b, o. unfold deleted in *.
  destruct Ch as [E1 E2 E3|o' E1 E2 E3|j o' b' H1 H2 E1 E2 E3|j o' b' H1 H2 H3 E1 E2 E3]; rewrite E1, E3.
  - tauto.
  - repeat split; try (apply nth_app_keep; assumption); [destruct O1|destruct O2]; (left; apply nth_app_keep; assumption) || (right; apply nth_app_keep; assumption).
  - repeat split; try (apply nth_app_keep; assumption); [destruct O1|destruct O2]; (left; apply nth_app_keep; assumption) || (right; apply nth_app_keep; assumption).
  - repeat split; try assumption.
    + destruct (Nat.eq_dec j i) as [<-|Nj]; [right; exact (drop_same _ _ _ _ H1)|]. rewrite drop_other by exact Nj. exact O1.
    + destruct (Nat.eq_dec j k) as [<-|Nj]; [right; exact (drop_same _ _ _ _ H1)|]. rewrite drop_other by exact Nj. exact O2.
Qed.

Lemma copied_twins : forall (e : A) h i k c, copied e h i k c -> kept c /\ twins i k c.
Proof.
  intros e h i k c (ks1 & ks2 & c1 & c2 & R1 & S1 & R2).
  assert (kept c1) as K1 by (exact (crun_ind e kept kept_change ks1 _ _ (kept_start h) R1)).
  assert (kept c2) as K2 by (exact (kept_change _ _ K1 (cstep_change _ _ _ _ _ S1))).
  split; [exact (crun_ind e kept kept_change ks2 _ _ K2 R2)|].
  apply (crun_ind e (twins i k) (twins_change i k) ks2 c2 c); [|exact R2].
  apply cstep_inv in S1. destruct S1 as (o & b & E & B & -> & Q). injection Q as ->. destruct K1 as (L & _).
  assert (i < length (w_objs (c_base c1))) as Li by (apply nth_error_Some; unfold exists_field in E; congruence).
  split; [lia|]. exists b, o. unfold deleted. cbn [c_buf c_base w_objs]. repeat split.
  - apply nth_app_keep. exact B.
  - rewrite <- L, nth_error_app2, Nat.sub_diag by lia. reflexivity.
  - left. apply nth_app_keep. exact E.
  - left. rewrite nth_error_app2, Nat.sub_diag by lia. reflexivity.
Qed.

(** Programs without copies. *)
Definition apart (c : cworld A) : Prop :=
  length (c_buf c) = length (w_objs (c_base c)) /\
  (forall i b, nth_error (c_buf c) i = Some b -> b < length (c_live c)) /\
  (forall i j b, nth_error (c_buf c) i = Some b -> nth_error (c_buf c) j = Some b -> i = j) /\
  (forall i o, nth_error (w_objs (c_base c)) i = Some (Some o) ->
     exists b, nth_error (c_buf c) i = Some b /\ nth_error (c_live c) b = Some true).

Lemma apart_start : forall h, apart (cstart h).
Proof. intro h. repeat split; try reflexivity; intros [|i]; intros; cbn in *; discriminate. Qed.

Lemma apart_same : forall c w', apart c -> w_objs w' = w_objs (c_base c) -> apart (mkC w' (c_live c) (c_buf c)).
Proof. intros c w' H E. unfold apart in *. cbn [c_base c_live c_buf]. rewrite E. exact H. Qed.

Lemma apart_more : forall c w' o, apart c -> w_objs w' = w_objs (c_base c) ++ [Some o] ->
  apart (mkC w' (c_live c ++ [true]) (c_buf c ++ [length (c_live c)])).
Proof.
  intros c w' o (K1 & K2 & K3 & K4) E. unfold apart. cbn [c_base c_live c_buf]. rewrite E. repeat split.
  - rewrite !app_length. cbn. lia.
  - intros j b Hj. rewrite app_length. cbn. apply nth_last in Hj. destruct Hj as [Hj|(_ & ->)]; [apply K2 in Hj; lia|lia].
  - intros i j b Hi Hj. apply nth_last in Hi. apply nth_last in Hj. destruct Hi as [Hi|(-> & ->)], Hj as [Hj|(-> & X)].
    + exact (K3 i j b Hi Hj).
    + subst b. apply K2 in Hi. lia.
    + apply K2 in Hj. lia.
    + reflexivity.
  - intros i o' Hi. apply nth_last in Hi. destruct Hi as [Hi|(-> & _)].
    + destruct (K4 i o' Hi) as (b & B1 & B2). exists b. split; apply nth_app_keep; assumption.
    + exists (length (c_live c)). split.
      * rewrite <- K1, nth_error_app2, Nat.sub_diag by lia. reflexivity.
      * rewrite nth_error_app2, Nat.sub_diag by lia. reflexivity.
Qed.

Lemma apart_less : forall c w' i b, apart c -> nth_error (c_buf c) i = Some b -> i < length (w_objs (c_base c)) ->
  w_objs w' = drop (w_objs (c_base c)) i -> apart (mkC w' (kill (c_live c) b) (c_buf c)).
Proof.
  intros c w' i b (K1 & K2 & K3 & K4) B Li E. unfold apart. cbn [c_base c_live c_buf]. rewrite E. repeat split.
  - rewrite drop_length. exact K1.
  - intros j bj Hj. rewrite kill_length. exact (K2 j bj Hj).
  - exact K3.
  - intros j o Hj. destruct (Nat.eq_dec i j) as [<-|N].
    + destruct (nth_error (w_objs (c_base c)) i) as [y|] eqn:Y; [|apply nth_error_None in Y; lia].
      rewrite (drop_same _ _ _ _ Y) in Hj. discriminate Hj.
    + rewrite drop_other in Hj by exact N. destruct (K4 j o Hj) as (bj & B1 & B2). exists bj. split; [exact B1|].
      rewrite kill_other; [exact B2|]. intros <-. apply N. exact (K3 i j b B B1).
Qed.

(** One call of a program without copies. *)
Lemma apart_step : forall (e : A) c d, apart c ->
  match step e (c_base c) d with
  | Ok (w', r) => exists c', cstep e c (CCall d) = Ok (c', r) /\ c_base c' = w' /\ apart c'
  | Throw => cstep e c (CCall d) = Throw
  | UB => cstep e c (CCall d) = UB
  end.
Proof.
  intros e c d H. destruct (step e (c_base c) d) as [[w' r]| |] eqn:S1.
  - pose proof S1 as S2. apply step_inv in S2. destruct d as [v|p|p v|a|i|i|i|i]; cbn [cstep].
    + destruct S2 as (E & _). eexists. rewrite S1. split; [reflexivity|]. split; [reflexivity|]. apply apart_same; [exact H|]. now rewrite E.
    + destruct S2 as (_ & E). eexists. rewrite S1. split; [reflexivity|]. split; [reflexivity|]. apply apart_same; [exact H|]. now rewrite E.
    + destruct S2 as (_ & E). eexists. rewrite S1. split; [reflexivity|]. split; [reflexivity|]. apply apart_same; [exact H|]. now rewrite E.
    + destruct S2 as (o & _ & E & _). eexists. rewrite S1. split; [reflexivity|]. split; [reflexivity|]. apply (apart_more c w' o H). now rewrite E.
    + destruct S2 as (o & h' & o' & _ & _ & E & _). eexists. rewrite S1. split; [reflexivity|]. split; [reflexivity|]. apply (apart_more c w' o' H). now rewrite E.
    + destruct S2 as (o & X & E & _). destruct H as (K1 & K2 & K3 & K4). destruct (K4 i o X) as (b & B1 & B2).
      rewrite (proj2 (buffer_ok c i b) (conj B1 B2)). cbn [obind]. eexists. rewrite S1. split; [reflexivity|]. split; [reflexivity|].
      apply apart_same; [repeat split; assumption|]. now rewrite E.
    + destruct S2 as (o & vs & _ & _ & E & _). eexists. rewrite S1. split; [reflexivity|]. split; [reflexivity|]. apply apart_same; [exact H|]. now rewrite E.
    + destruct S2 as (o & h' & X & _ & E). pose proof H as (K1 & K2 & K3 & K4). destruct (K4 i o X) as (b & B1 & B2).
      rewrite (proj2 (buffer_ok c i b) (conj B1 B2)). cbn [obind]. eexists. rewrite S1. split; [reflexivity|]. split; [reflexivity|].
      apply (apart_less c w' i b H B1); [apply nth_error_Some; unfold exists_field in X; congruence|]. now rewrite E.
  - destruct d as [v|p|p v|a|i|i|i|i]; cbn [cstep]; try (rewrite S1; reflexivity).
    + exfalso. cbn [step] in S1. destruct (object (c_base c) i) eqn:O; try discriminate S1. exact (object_throw _ _ _ O).
    + exfalso. cbn [step] in S1. destruct (object (c_base c) i) eqn:O; cbn [obind] in S1; try discriminate S1; [|exact (object_throw _ _ _ O)].
      destruct (fre_all (w_heap (c_base c)) (owned (n_arr a))) eqn:F; try discriminate S1. exact (fre_all_not_throw _ _ _ F).
  - destruct d as [v|p|p v|a|i|i|i|i]; cbn [cstep]; try (rewrite S1; reflexivity).
    + destruct (buffer c i) as [b| |] eqn:B; cbn [obind]; [rewrite S1; reflexivity|exfalso; exact (buffer_throw _ _ B)|reflexivity].
    + destruct (buffer c i) as [b| |] eqn:B; cbn [obind]; [rewrite S1; reflexivity|exfalso; exact (buffer_throw _ _ B)|reflexivity].
Qed.

Lemma apart_run : forall (e : A) ds c, apart c ->
  obind (crun e c (map CCall ds)) (fun c' => Ok (c_base c')) = run e (c_base c) ds.
Proof.
  intros e ds. induction ds as [|d ds IH]; intros c H; cbn [crun run map]; [reflexivity|].
  pose proof (apart_step e c d H) as S1. destruct (step e (c_base c) d) as [[w' r]| |].
  - destruct S1 as (c' & -> & <- & H'). exact (IH c' H').
  - rewrite S1. exact (IH c H).
  - rewrite S1. reflexivity.
Qed.

Lemma cstep_released : forall (e : A) c k c' r p, cstep e c k = Ok (c', r) -> released (c_base c) p -> released (c_base c') p.
Proof.
  intros e c k c' r p H Q. apply cstep_inv in H. destruct k as [d|i].
  - destruct d as [v|q|q v|a|i|i|i|i].
    + destruct H as (w' & S1 & ->). exact (step_released _ _ _ _ _ _ _ S1 Q).
    + destruct H as (w' & S1 & ->). exact (step_released _ _ _ _ _ _ _ S1 Q).
    + destruct H as (w' & S1 & ->). exact (step_released _ _ _ _ _ _ _ S1 Q).
    + destruct H as (w' & S1 & ->). exact (step_released _ _ _ _ _ _ _ S1 Q).
    + destruct H as (w' & S1 & ->). exact (step_released _ _ _ _ _ _ _ S1 Q).
    + destruct H as (b & w' & _ & _ & S1 & ->). exact (step_released _ _ _ _ _ _ _ S1 Q).
    + destruct H as (w' & S1 & ->). exact (step_released _ _ _ _ _ _ _ S1 Q).
    + destruct H as (b & w' & _ & _ & S1 & ->). exact (step_released _ _ _ _ _ _ _ S1 Q).
  - destruct H as (o & b & _ & _ & -> & _). exact Q.
Qed.

(** A field that a call deletes leaves released arrays; every other field stays. *)
Lemma cstep_object : forall (e : A) c k c' r i o, cstep e c k = Ok (c', r) -> nth_error (w_objs (c_base c)) i = Some (Some o) ->
  nth_error (w_objs (c_base c')) i = Some (Some o) \/
  (deleted c' i /\ forall p, In p (owned (n_arr o)) -> released (c_base c') p).
Proof.
  intros e c k c' r i o H O. destruct (cstep_change _ _ _ _ _ H) as [E1 E2 E3|o' E1 E2 E3|j o' b' H1 H2 E1 E2 E3|j o' b' H1 H2 H3 E1 E2 E3].
  - left. now rewrite E1.
  - left. rewrite E1. apply nth_app_keep. exact O.
  - left. rewrite E1. apply nth_app_keep. exact O.
  - destruct (Nat.eq_dec j i) as [->|N]; [|left; rewrite E1, drop_other by exact N; exact O].
    right. split; [unfold deleted; rewrite E1; exact (drop_same _ _ _ _ H1)|].
    apply cstep_inv in H. destruct k as [d|m].
    + destruct d as [v|q|q v|a|m|m|m|m].
      * exfalso. destruct H as (w' & S1 & ->). apply step_inv in S1. destruct S1 as (-> & _). cbn [c_base w_objs] in E1.
        rewrite E1, (drop_same _ _ _ _ H1) in O. discriminate O.
      * exfalso. destruct H as (w' & S1 & ->). apply step_inv in S1. destruct S1 as (_ & ->). cbn [c_base w_objs] in E1.
        rewrite E1, (drop_same _ _ _ _ H1) in O. discriminate O.
      * exfalso. destruct H as (w' & S1 & ->). apply step_inv in S1. destruct S1 as (_ & ->). cbn [c_base w_objs] in E1.
        rewrite E1, (drop_same _ _ _ _ H1) in O. discriminate O.
      * exfalso. destruct H as (w' & S1 & ->). apply step_inv in S1. destruct S1 as (x & _ & -> & _). cbn [c_base w_objs] in E1.
        apply (f_equal (@length _)) in E1. rewrite app_length, drop_length in E1. cbn in E1. lia.
      * exfalso. destruct H as (w' & S1 & ->). apply step_inv in S1. destruct S1 as (x & y & z & _ & _ & -> & _). cbn [c_base w_objs] in E1.
        apply (f_equal (@length _)) in E1. rewrite app_length, drop_length in E1. cbn in E1. lia.
      * exfalso. destruct H as (b & w' & _ & _ & S1 & ->). apply step_inv in S1. destruct S1 as (x & _ & -> & _). cbn [c_base w_objs] in E1.
        rewrite E1, (drop_same _ _ _ _ H1) in O. discriminate O.
      * exfalso. destruct H as (w' & S1 & ->). apply step_inv in S1. destruct S1 as (x & vs & _ & _ & -> & _). cbn [c_base w_objs] in E1.
        rewrite E1, (drop_same _ _ _ _ H1) in O. discriminate O.
      * destruct H as (b & w' & _ & _ & S1 & ->). cbn [c_base] in *. destruct (Nat.eq_dec m i) as [->|N].
        -- exact (proj1 (delete_effect _ _ _ _ _ _ _ S1 O)).
        -- exfalso. apply step_inv in S1. destruct S1 as (x & h' & _ & _ & ->). cbn [w_objs] in E1.
           apply (f_equal (fun l => nth_error l i)) in E1. rewrite (drop_same _ _ _ _ H1), drop_other in E1 by exact N. congruence.
    + exfalso. destruct H as (x & b & _ & _ & -> & _). cbn [c_base w_objs] in E1.
      apply (f_equal (@length _)) in E1. rewrite app_length, drop_length in E1. cbn in E1. lia.
Qed.

Lemma rd_all_released : forall ps (h : list (option A)) p, In p ps -> nth_error h p = Some None -> rd_all h ps = UB.
Proof.
  intros ps h p. induction ps as [|q ps IH]; intros Hp Hn; [destruct Hp|]. cbn [rd_all].
  destruct Hp as [->|Hp]; [unfold rd; rewrite Hn; reflexivity|].
  destruct (rd h q) as [v| |] eqn:Q; cbn [obind]; [rewrite (IH Hp Hn); reflexivity|exfalso; exact (rd_throw _ _ _ Q)|reflexivity].
Qed.

Lemma dead_object : forall (e : A) c k o, nth_error (w_objs (c_base c)) k = Some (Some o) ->
  (forall p, In p (owned (n_arr o)) -> released (c_base c) p) ->
  cstep e c (CCall (AskDomain k)) = UB /\ ((exists p, owns (c_base c) k p) -> cstep e c (CCall (Clone k)) = UB).
Proof.
  intros e c k o O G. assert (object (c_base c) k = Ok o) as Q by (apply object_ok; exact O). split.
  - cbn [cstep step]. rewrite Q. cbn [obind]. unfold ask_domain. destruct (domain_of (n_arr o)) as [|r z|r z] eqn:D; try reflexivity.
    rewrite (rd_all_released [r; z] (w_heap (c_base c)) r); [reflexivity|left; reflexivity|]. apply G. unfold owned, domain_of in *.
    rewrite !in_app_iff. right. destruct (given (a_wall (n_arr o))); rewrite D; cbn [cont_arrays In]; tauto.
  - intros (p & o' & O' & Hp). unfold exists_field in O'. rewrite O in O'. injection O' as <-.
    cbn [cstep step]. rewrite Q. cbn [obind]. pose proof (G p Hp) as Rp. unfold released in Rp. unfold owned in Hp. rewrite !in_app_iff in Hp.
    assert (forall d, In p (cont_arrays d) -> clone_contents (w_heap (c_base c)) e d = UB) as CU.
    { intros [|r z|r z] X; cbn [cont_arrays] in X; [destruct X|destruct X|]. cbn [clone_contents]. exact (rd_all_released [r; z] _ p X Rp). }
    assert (forall d, clone_contents (w_heap (c_base c)) e d <> Throw) as CT.
    { intros [|r z|r z]; cbn [clone_contents]; try discriminate. apply rd_all_not_throw. }
    unfold clone. destruct (rd_all (w_heap (c_base c)) (a_grid (n_arr o))) as [g| |] eqn:Eg; cbn [obind];
      [|exfalso; exact (rd_all_not_throw _ _ _ Eg)|reflexivity].
    destruct Hp as [Hp|[Hp|Hp]]; [rewrite (rd_all_released _ _ p Hp Rp) in Eg; discriminate Eg| |].
    + destruct (clone_contents (w_heap (c_base c)) e (a_sep (n_arr o))) as [s| |] eqn:Es; cbn [obind]; [|exfalso; exact (CT _ Es)|reflexivity].
      rewrite (CU _ Hp). reflexivity.
    + rewrite (CU _ Hp). reflexivity.
Qed.

(** Fields with the same buffers: the same object while they exist, and without arrays once one of
    them is deleted. *)
Definition family (c : cworld A) : Prop :=
  (forall i j b o o', nth_error (c_buf c) i = Some b -> nth_error (c_buf c) j = Some b ->
     nth_error (w_objs (c_base c)) i = Some (Some o) -> nth_error (w_objs (c_base c)) j = Some (Some o') -> o = o') /\
  (forall i j b o, nth_error (c_buf c) i = Some b -> nth_error (c_buf c) j = Some b -> deleted c i ->
     nth_error (w_objs (c_base c)) j = Some (Some o) -> forall p, In p (owned (n_arr o)) -> released (c_base c) p).

Lemma family_start : forall h, family (cstart h).
Proof. intro h. split; intros [|i]; intros; cbn in *; discriminate. Qed.

Lemma family_step : forall (e : A) c d c' r, kept c -> family c -> cstep e c d = Ok (c', r) -> family c'.
Proof.
  intros e c d c' r (K1 & K2 & K3 & K4) (F1 & F2) H.
  assert (forall i j b o, nth_error (c_buf c) i = Some b -> nth_error (c_buf c) j = Some b -> deleted c i ->
     nth_error (w_objs (c_base c)) j = Some (Some o) -> forall p, In p (owned (n_arr o)) -> released (c_base c') p) as F2'.
  { intros i j b o Bi Bj D O p Hp. exact (cstep_released _ _ _ _ _ _ H (F2 i j b o Bi Bj D O p Hp)). }
  assert (forall i x, nth_error (w_objs (c_base c)) i = Some x -> i < length (c_buf c)) as LL.
  { intros i x X. rewrite K1. apply nth_error_Some. congruence. }
  pose proof (fun i o => cstep_object e c d c' r i o H) as CO. unfold family, deleted in *.
  destruct (cstep_change _ _ _ _ _ H) as [E1 E2 E3|o1 E1 E2 E3|m o1 b1 H1 H2 E1 E2 E3|m o1 b1 H1 H2 H3 E1 E2 E3]; rewrite E1, E3.
  - split; [exact F1|exact F2'].
  - assert (forall i b x, nth_error (c_buf c ++ [length (c_live c)]) i = Some b -> nth_error (w_objs (c_base c)) i = Some x -> nth_error (c_buf c) i = Some b) as N1.
    { intros i b x Hb Hx. now rewrite nth_error_app1 in Hb by exact (LL i x Hx). }
    assert (forall i b, nth_error (c_buf c ++ [length (c_live c)]) i = Some b -> i = length (w_objs (c_base c)) -> b = length (c_live c)) as N2.
    { intros i b Hb ->. rewrite <- K1, nth_error_app2, Nat.sub_diag in Hb by lia. now injection Hb. }
    split.
    + intros i j b o o' Bi Bj Oi Oj. apply nth_last in Oi. apply nth_last in Oj. destruct Oi as [Oi|(Ei & Xi)], Oj as [Oj|(Ej & Xj)].
      * exact (F1 i j b o o' (N1 _ _ _ Bi Oi) (N1 _ _ _ Bj Oj) Oi Oj).
      * exfalso. pose proof (K2 _ _ (N1 _ _ _ Bi Oi)). rewrite (N2 _ _ Bj Ej) in *. lia.
      * exfalso. pose proof (K2 _ _ (N1 _ _ _ Bj Oj)). rewrite (N2 _ _ Bi Ei) in *. lia.
      * congruence.
    + intros i j b o Bi Bj D Oj. apply nth_last in D. destruct D as [D|(_ & X)]; [|discriminate X]. apply nth_last in Oj. destruct Oj as [Oj|(Ej & Xj)].
      * exact (F2' i j b o (N1 _ _ _ Bi D) (N1 _ _ _ Bj Oj) D Oj).
      * exfalso. pose proof (K2 _ _ (N1 _ _ _ Bi D)). rewrite (N2 _ _ Bj Ej) in *. lia.
  - assert (forall i b x, nth_error (c_buf c ++ [b1]) i = Some b -> nth_error (w_objs (c_base c)) i = Some x -> nth_error (c_buf c) i = Some b) as N1.
    { intros i b x Hb Hx. now rewrite nth_error_app1 in Hb by exact (LL i x Hx). }
    assert (forall i b, nth_error (c_buf c ++ [b1]) i = Some b -> i = length (w_objs (c_base c)) -> b = b1) as N2.
    { intros i b Hb ->. rewrite <- K1, nth_error_app2, Nat.sub_diag in Hb by lia. now injection Hb. }
    split.
    + intros i j b o o' Bi Bj Oi Oj. apply nth_last in Oi. apply nth_last in Oj. destruct Oi as [Oi|(Ei & Xi)], Oj as [Oj|(Ej & Xj)].
      * exact (F1 i j b o o' (N1 _ _ _ Bi Oi) (N1 _ _ _ Bj Oj) Oi Oj).
      * injection Xj as ->. pose proof (N2 _ _ Bj Ej) as ->. exact (F1 i m b1 o o1 (N1 _ _ _ Bi Oi) H2 Oi H1).
      * injection Xi as ->. pose proof (N2 _ _ Bi Ei) as ->. exact (F1 m j b1 o1 o' H2 (N1 _ _ _ Bj Oj) H1 Oj).
      * congruence.
    + intros i j b o Bi Bj D Oj. apply nth_last in D. destruct D as [D|(_ & X)]; [|discriminate X]. apply nth_last in Oj. destruct Oj as [Oj|(Ej & Xj)].
      * exact (F2' i j b o (N1 _ _ _ Bi D) (N1 _ _ _ Bj Oj) D Oj).
      * injection Xj as ->. pose proof (N2 _ _ Bj Ej) as ->. exact (F2' i m b1 o1 (N1 _ _ _ Bi D) H2 D H1).
  - assert (forall i o, nth_error (drop (w_objs (c_base c)) m) i = Some (Some o) -> m <> i /\ nth_error (w_objs (c_base c)) i = Some (Some o)) as N1.
    { intros i o Hi. destruct (Nat.eq_dec m i) as [->|N]; [rewrite (drop_same _ _ _ _ H1) in Hi; discriminate Hi|].
      split; [exact N|]. now rewrite drop_other in Hi by exact N. }
    split.
    + intros i j b o o' Bi Bj Oi Oj. apply N1 in Oi. apply N1 in Oj. exact (F1 i j b o o' Bi Bj (proj2 Oi) (proj2 Oj)).
    + intros i j b o Bi Bj D Oj. apply N1 in Oj. destruct Oj as (Nj & Oj). destruct (Nat.eq_dec m i) as [->|N].
      * rewrite (F1 j i b o o1 Bj Bi Oj H1). destruct (CO i o1 H1) as [X|(_ & X)]; [|exact X].
        rewrite E1, (drop_same _ _ _ _ H1) in X. discriminate X.
      * rewrite drop_other in D by exact N. exact (F2' i j b o Bi Bj D Oj).
Qed.

Lemma kept_family_run : forall (e : A) ks c c', kept c -> family c -> crun e c ks = Ok c' -> kept c' /\ family c'.
Proof.
  intros e ks. induction ks as [|k ks IH]; intros c c' K F Q; cbn [crun] in Q; [injection Q as <-; split; assumption|].
  destruct (cstep e c k) as [[c1 r]| |] eqn:S1; [|exact (IH _ _ K F Q)|discriminate Q].
  exact (IH _ _ (kept_change _ _ K (cstep_change _ _ _ _ _ S1)) (family_step _ _ _ _ _ K F S1) Q).
Qed.

Lemma copied_family : forall (e : A) h i k c, copied e h i k c -> kept c /\ family c.
Proof.
  intros e h i k c (ks1 & ks2 & c1 & c2 & R1 & S1 & R2).
  destruct (kept_family_run e ks1 _ _ (kept_start h) (family_start h) R1) as (K & F).
  exact (kept_family_run e ks2 _ _ (kept_change _ _ K (cstep_change _ _ _ _ _ S1)) (family_step _ _ _ _ _ K F S1) R2).
Qed.

Lemma related_family : forall (e : A) h c i k, related e h c i k ->
  kept c /\ family c /\ exists b, nth_error (c_buf c) i = Some b /\ nth_error (c_buf c) k = Some b.
Proof.
  intros e h c i k H. induction H as [i k H|i k _ (K & F & b & B1 & B2)|i j k _ (K & F & b & B1 & B2) _ (_ & _ & b' & B3 & B4)].
  - destruct (copied_family e h i k c H) as (K & F). split; [exact K|]. split; [exact F|].
    destruct (copied_twins e h i k c H) as (_ & _ & b & o & B1 & B2 & _). exists b. split; assumption.
  - split; [exact K|]. split; [exact F|]. exists b. split; assumption.
  - split; [exact K|]. split; [exact F|]. exists b. split; [exact B1|]. congruence.
Qed.

End Proofs.
