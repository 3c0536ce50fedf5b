From Verif Require Import Base FieldOwnModel FieldOwnSpec FieldOwnProofs.

Section Proofs2.
Variable A : Type.
Implicit Types h : heap A.
Implicit Types w : world A.
Implicit Types cs : list (call A).

Lemma step_inv : forall (e : A) w c w' r, step e w c = Ok (w', r) ->
  match c with
  | NewArray v => w' = mkW (w_heap w ++ [Some v]) (w_objs w) /\ r = RArray (length (w_heap w))
  | FreeArray p => live w p /\ w' = mkW (upd (w_heap w) p None) (w_objs w)
  | WriteArray p v => live w p /\ w' = mkW (upd (w_heap w) p (Some v)) (w_objs w)
  | MakeField a => exists o, make (w_heap w) a = Ok o /\ w' = mkW (w_heap w) (w_objs w ++ [Some o]) /\ r = RField (length (w_objs w))
  | Clone i => exists o h' o', exists_field w i o /\ clone (w_heap w) e o = Ok (h', o') /\
      w' = mkW h' (w_objs w ++ [Some o']) /\ r = RField (length (w_objs w))
  | Evaluate i => exists o, exists_field w i o /\ w' = w /\ r = RValues (n_spline o)
  | AskDomain i => exists o vs, exists_field w i o /\ ask_domain (w_heap w) o = Ok vs /\ w' = w /\ r = RValues vs
  | Delete i => exists o h', exists_field w i o /\ fre_all (w_heap w) (owned (n_arr o)) = Ok h' /\
      w' = mkW h' (drop (w_objs w) i)
  end.
Proof.
  intros e w c w' r H. destruct c as [v|p|p v|a|i|i|i|i]; cbn [step] in H.
  - injection H as <- <-. split; reflexivity.
  - destruct (fre (w_heap w) p) as [h| |] eqn:F; cbn [obind] in H; try discriminate H. injection H as <- <-.
    apply fre_ok in F. destruct F as (L & ->). split; [exact L|reflexivity].
  - destruct (rd (w_heap w) p) as [x| |] eqn:F; cbn [obind] in H; try discriminate H. injection H as <- <-.
    apply rd_ok in F. split; [exists x; exact F|reflexivity].
  - destruct (make (w_heap w) a) as [o| |] eqn:M; cbn [obind] in H; try discriminate H. injection H as <- <-.
    exists o. repeat split; reflexivity.
  - destruct (object w i) as [o| |] eqn:O; cbn [obind] in H; try discriminate H. apply object_ok in O.
    destruct (clone (w_heap w) e o) as [[h' o']| |] eqn:M; cbn [obind] in H; try discriminate H. injection H as <- <-.
    exists o, h', o'. repeat split; assumption || reflexivity.
  - destruct (object w i) as [o| |] eqn:O; cbn [obind] in H; try discriminate H. apply object_ok in O. injection H as <- <-.
    exists o. repeat split; assumption || reflexivity.
  - destruct (object w i) as [o| |] eqn:O; cbn [obind] in H; try discriminate H. apply object_ok in O.
    destruct (ask_domain (w_heap w) o) as [vs| |] eqn:M; cbn [obind] in H; try discriminate H. injection H as <- <-.
    exists o, vs. repeat split; assumption || reflexivity.
  - destruct (object w i) as [o| |] eqn:O; cbn [obind] in H; try discriminate H. apply object_ok in O.
    destruct (fre_all (w_heap w) (owned (n_arr o))) as [h'| |] eqn:M; cbn [obind] in H; try discriminate H. injection H as <- <-.
    exists o, h'. repeat split; assumption || reflexivity.
Qed.

Lemma run_app : forall e a b w, run e w (a ++ b) = obind (run e w a) (fun w' => run e w' b).
Proof.
  intros e a. induction a as [|c a IH]; intros b w; cbn [run app]; [reflexivity|].
  destruct (step e w c) as [[w' r]| |]; [apply IH|apply IH|reflexivity].
Qed.

Lemma run_cons : forall e c cs w w', run e w (c :: cs) = Ok w' ->
  (exists w1 r, step e w c = Ok (w1, r) /\ run e w1 cs = Ok w') \/ (step e w c = Throw /\ run e w cs = Ok w').
Proof.
  intros e c cs w w' H. cbn [run] in H. destruct (step e w c) as [[w1 r]| |]; [left; eauto|right; auto|discriminate H].
Qed.

(** Fields stay as they are until they are deleted. *)
Lemma step_field : forall e w c w' r i o, step e w c = Ok (w', r) -> exists_field w i o -> c <> Delete i -> exists_field w' i o.
Proof.
  intros e w c w' r i o H O N. apply step_inv in H. unfold exists_field in *.
  destruct c as [v|p|p v|a|k|k|k|k].
  - destruct H as (-> & _). exact O.
  - destruct H as (_ & ->). exact O.
  - destruct H as (_ & ->). exact O.
  - destruct H as (x & _ & -> & _). cbn [w_objs]. rewrite nth_error_app1; [exact O|]. apply nth_error_Some. congruence.
  - destruct H as (x & h' & y & _ & _ & -> & _). cbn [w_objs]. rewrite nth_error_app1; [exact O|]. apply nth_error_Some. congruence.
  - destruct H as (x & _ & -> & _). exact O.
  - destruct H as (x & vs & _ & _ & -> & _). exact O.
  - destruct H as (x & h' & _ & _ & ->). cbn [w_objs]. rewrite drop_other; [exact O|]. congruence.
Qed.

Lemma run_field : forall e cs w w' i o, run e w cs = Ok w' -> exists_field w i o -> ~ In (Delete i) cs -> exists_field w' i o.
Proof.
  intros e cs. induction cs as [|c cs IH]; intros w w' i o H O N; [cbn in H; congruence|].
  apply run_cons in H. destruct H as [(w1 & r & S1 & H)|(S1 & H)].
  - apply (IH _ _ _ _ H); [|intro X; apply N; now right]. apply (step_field _ _ _ _ _ _ _ S1 O). intro X. apply N. now left.
  - apply (IH _ _ _ _ H O). intro X. apply N. now right.
Qed.

(** Fields only come from making and cloning. *)
Lemma step_field_back : forall e w c w' r i o, step e w c = Ok (w', r) -> exists_field w' i o ->
  exists_field w i o \/
  (i = length (w_objs w) /\ (exists a, c = MakeField a /\ n_arr o = a) \/
   i = length (w_objs w) /\ (exists k, c = Clone k) /\ forall p, In p (pointers (n_arr o)) -> length (w_heap w) <= p).
Proof.
  intros e w c w' r i o H O. apply step_inv in H. unfold exists_field in *.
  destruct c as [v|p|p v|a|k|k|k|k].
  - destruct H as (-> & _). left. exact O.
  - destruct H as (_ & ->). left. exact O.
  - destruct H as (_ & ->). left. exact O.
  - destruct H as (x & M & -> & _). cbn [w_objs] in O. apply app_last in O. destruct O as [O|(-> & ->)]; [left; exact O|].
    right. left. split; [reflexivity|]. exists a. split; [reflexivity|]. exact (proj1 (proj2 (make_inv _ _ _ _ M))).
  - destruct H as (x & h' & y & _ & M & -> & _). cbn [w_objs] in O. apply app_last in O. destruct O as [O|(-> & ->)]; [left; exact O|].
    right. right. split; [reflexivity|]. split; [exists k; reflexivity|].
    destruct (clone_inv _ _ _ _ _ _ M) as (ext & _ & _ & B & _). intros p I'. exact (proj1 (B p I')).
  - destruct H as (x & _ & -> & _). left. exact O.
  - destruct H as (x & vs & _ & _ & -> & _). left. exact O.
  - destruct H as (x & h' & _ & _ & ->). cbn [w_objs] in O. destruct (Nat.eq_dec k i) as [->|N].
    + destruct (nth_error (w_objs w) i) as [y|] eqn:E.
      * rewrite (drop_same _ _ _ _ E) in O. discriminate O.
      * exfalso. apply nth_error_None in E. assert (length (drop (w_objs w) i) = length (w_objs w)) as L.
        { clear. generalize (w_objs w) as l. intro l. revert i. induction l as [|z l IH]; intros [|i]; cbn; try reflexivity. now rewrite IH. }
        assert (i < length (drop (w_objs w) i)) by (apply nth_error_Some; congruence). lia.
    + left. now rewrite drop_other in O.
Qed.

Lemma step_heap_length : forall e w c w' r, step e w c = Ok (w', r) -> length (w_heap w) <= length (w_heap w').
Proof.
  intros e w c w' r H. apply step_inv in H. destruct c as [v|p|p v|a|k|k|k|k].
  - destruct H as (-> & _). cbn [w_heap]. rewrite app_length. lia.
  - destruct H as (_ & ->). cbn [w_heap]. rewrite upd_length. lia.
  - destruct H as (_ & ->). cbn [w_heap]. rewrite upd_length. lia.
  - destruct H as (x & M & -> & _). lia || (cbn [w_heap]; lia).
  - destruct H as (x & h' & y & _ & M & -> & _). destruct (clone_inv _ _ _ _ _ _ M) as (ext & -> & _).
    cbn [w_heap]. rewrite app_length. lia.
  - destruct H as (x & _ & -> & _). lia.
  - destruct H as (x & vs & _ & _ & -> & _). lia.
  - destruct H as (x & h' & _ & F & ->). cbn [w_heap]. destruct (fre_all_ok _ _ _ _ F) as (_ & _ & _ & _ & L). lia.
Qed.

(** An array that the caller does not name and whose owners are not deleted keeps its contents. *)
Lemma step_cell : forall e w c w' r p, step e w c = Ok (w', r) -> p < length (w_heap w) -> ~ names c p ->
  (forall i, owns w i p -> c <> Delete i) -> nth_error (w_heap w') p = nth_error (w_heap w) p.
Proof.
  intros e w c w' r p H L N D. apply step_inv in H. destruct c as [v|q|q v|a|k|k|k|k]; cbn [names] in N.
  - destruct H as (-> & _). cbn [w_heap]. now rewrite nth_error_app1.
  - destruct H as (_ & ->). cbn [w_heap]. apply upd_other. congruence.
  - destruct H as (_ & ->). cbn [w_heap]. apply upd_other. congruence.
  - destruct H as (x & M & -> & _). reflexivity.
  - destruct H as (x & h' & y & _ & M & -> & _). destruct (clone_inv _ _ _ _ _ _ M) as (ext & -> & _).
    cbn [w_heap]. now rewrite nth_error_app1.
  - destruct H as (x & _ & -> & _). reflexivity.
  - destruct H as (x & vs & _ & _ & -> & _). reflexivity.
  - destruct H as (x & h' & O & F & ->). cbn [w_heap]. destruct (fre_all_ok _ _ _ _ F) as (_ & _ & _ & K & _).
    apply K. intro I'. apply (D k); [exists x; split; assumption|reflexivity].
Qed.

Lemma run_cell : forall e cs w w' p, run e w cs = Ok w' -> p < length (w_heap w) -> (forall c, In c cs -> ~ names c p) ->
  (forall i, owns w i p -> ~ In (Delete i) cs) -> nth_error (w_heap w') p = nth_error (w_heap w) p.
Proof.
  intros e cs. induction cs as [|c cs IH]; intros w w' p H L N D; [cbn in H; congruence|].
  apply run_cons in H. destruct H as [(w1 & r & S1 & H)|(S1 & H)].
  - rewrite (IH _ _ p H).
    + apply (step_cell _ _ _ _ _ _ S1 L); [apply N; now left|]. intros i O X. apply (D i O). now left.
    + pose proof (step_heap_length _ _ _ _ _ S1). lia.
    + intros c' I'. apply N. now right.
    + intros i (o & O & I') X. destruct (step_field_back _ _ _ _ _ _ _ S1 O) as [O1|[(E & a & -> & EA)|(E & _ & B)]].
      * apply (D i); [exists o; split; assumption|now right].
      * apply (N (MakeField a)); [now left|]. cbn [names]. now rewrite <- EA.
      * assert (IP : In p (pointers (n_arr o))) by (unfold pointers; rewrite in_app_iff; now left). specialize (B p IP). lia.
  - apply (IH _ _ p H L); [intros c' I'; apply N; now right|]. intros i O X. apply (D i O). now right.
Qed.

(** Released arrays stay released. *)
Lemma step_released : forall e w c w' r p, step e w c = Ok (w', r) -> released w p -> released w' p.
Proof.
  intros e w c w' r p H R. assert (L : p < length (w_heap w)) by (unfold released in R; apply nth_error_Some; congruence).
  unfold released in *. apply step_inv in H. destruct c as [v|q|q v|a|k|k|k|k].
  - destruct H as (-> & _). cbn [w_heap]. now rewrite nth_error_app1.
  - destruct H as ((x & X) & ->). cbn [w_heap]. rewrite upd_other; [exact R|]. congruence.
  - destruct H as ((x & X) & ->). cbn [w_heap]. rewrite upd_other; [exact R|]. congruence.
  - destruct H as (x & M & -> & _). exact R.
  - destruct H as (x & h' & y & _ & M & -> & _). destruct (clone_inv _ _ _ _ _ _ M) as (ext & -> & _).
    cbn [w_heap]. now rewrite nth_error_app1.
  - destruct H as (x & _ & -> & _). exact R.
  - destruct H as (x & vs & _ & _ & -> & _). exact R.
  - destruct H as (x & h' & O & F & ->). cbn [w_heap]. destruct (fre_all_ok _ _ _ _ F) as (_ & LV & _ & K & _).
    destruct (in_dec Nat.eq_dec p (owned (n_arr x))) as [I'|I'].
    + destruct (LV p I') as (v & V). congruence.
    + now rewrite K.
Qed.

Lemma released_delete : forall e cs w i p, released w p -> owns w i p -> In (Delete i) cs -> run e w cs = UB.
Proof.
  intros e cs. induction cs as [|c cs IH]; intros w i p R (o & O & I') D; [destruct D|]. cbn [run].
  destruct (step e w c) as [[w1 r]| |] eqn:S1; [| |reflexivity].
  - destruct D as [->|D].
    + exfalso. apply step_inv in S1. destruct S1 as (x & h' & X & F & _). unfold exists_field in *.
      assert (x = o) by congruence. subst x. destruct (fre_all_ok _ _ _ _ F) as (_ & LV & _). destruct (LV p I') as (v & V).
      unfold released in R. congruence.
    + apply (IH w1 i p); [exact (step_released _ _ _ _ _ _ S1 R)| |exact D].
      exists o. split; [|exact I']. apply (step_field _ _ _ _ _ _ _ S1 O). intros ->.
      apply step_inv in S1. destruct S1 as (x & h' & X & F & _). unfold exists_field in *.
      assert (x = o) by congruence. subst x. destruct (fre_all_ok _ _ _ _ F) as (_ & LV & _). destruct (LV p I') as (v & V).
      unfold released in R. congruence.
  - destruct D as [->|D]; [|apply (IH w i p); [exact R|exists o; split; assumption|exact D]].
    exfalso. cbn [step] in S1. apply object_ok in O. rewrite O in S1. cbn [obind] in S1.
    destruct (fre_all (w_heap w) (owned (n_arr o))) eqn:F; cbn [obind] in S1; try discriminate S1.
    exact (fre_all_not_throw _ _ _ F).
Qed.

(** Deletion. *)
Lemma delete_iff : forall e w i, step e w (Delete i) <> UB <->
  exists o, exists_field w i o /\ NoDup (owned (n_arr o)) /\ forall p, In p (owned (n_arr o)) -> live w p.
Proof.
  intros e w i. cbn [step]. split.
  - intro H. destruct (object w i) as [o| |] eqn:O; cbn [obind] in H; [|exfalso; exact (object_throw _ _ _ O)|congruence].
    apply object_ok in O. exists o. split; [exact O|].
    destruct (fre_all (w_heap w) (owned (n_arr o))) as [h'| |] eqn:F; cbn [obind] in H; [|exfalso; exact (fre_all_not_throw _ _ _ F)|congruence].
    destruct (fre_all_ok _ _ _ _ F) as (N & LV & _). split; [exact N|exact LV].
  - intros (o & O & N & LV). apply object_ok in O. rewrite O. cbn [obind].
    destruct (fre_all_defined _ _ _ N LV) as (h' & F). rewrite F. discriminate.
Qed.

Lemma delete_effect : forall e w i o w' r, step e w (Delete i) = Ok (w', r) -> exists_field w i o ->
  (forall p, In p (owned (n_arr o)) -> released w' p) /\
  (forall p, ~ In p (owned (n_arr o)) -> nth_error (w_heap w') p = nth_error (w_heap w) p) /\
  (forall j o', exists_field w' j o' <-> j <> i /\ exists_field w j o').
Proof.
  intros e w i o w' r H O. pose proof H as H0. apply step_inv in H. destruct H as (x & h' & X & F & ->). unfold exists_field in *.
  assert (x = o) by congruence. subst x. destruct (fre_all_ok _ _ _ _ F) as (_ & _ & D & K & _).
  split; [exact D|]. split; [exact K|]. intros j o'. cbn [w_objs]. destruct (Nat.eq_dec i j) as [->|N].
  - rewrite (drop_same _ _ _ _ O). split; [discriminate|]. intros (Y & _). congruence.
  - rewrite drop_other by exact N. split; [intro Y; split; [congruence|exact Y]|tauto].
Qed.

(** Following the rules. *)
Lemma live_len : forall w p, live w p -> p < length (w_heap w).
Proof. intros w p (v & E). apply nth_error_Some. congruence. Qed.

Lemma psi_pointers : forall a p, a_psi a = Some p -> In p (pointers a).
Proof. intros a p E. unfold pointers. rewrite E, in_app_iff. right. now left. Qed.

Lemma clone_points : forall h e o h' o', clone h e o = Ok (h', o') -> has_points (n_arr o').
Proof.
  intros h e o h' o' H. unfold clone in H.
  destruct (rd_all h (a_grid (n_arr o))) as [g| |]; cbn [obind] in H; try discriminate H.
  destruct (clone_contents h e (a_sep (n_arr o))) as [s| |]; cbn [obind] in H; try discriminate H.
  destruct (clone_contents h e (a_wall (n_arr o))) as [l| |]; cbn [obind] in H; try discriminate H.
  destruct (rd_all h match a_psi (n_arr o) with Some p => [p] | None => [] end) as [q| |]; cbn [obind] in H; try discriminate H.
  match type of H with obind (make ?hh ?aa) _ = _ => destruct (make hh aa) as [o2| |] eqn:M; cbn [obind] in H; try discriminate H end.
  injection H as <- <-. destruct (make_inv _ _ _ _ M) as (_ & AR & _ & _ & P). rewrite AR. exact P.
Qed.

Lemma careful_step : forall e w c, well_kept w -> careful w c ->
  (exists w' r, step e w c = Ok (w', r) /\ well_kept w') \/
  (step e w c = Throw /\ exists a, c = MakeField a /\ a_sep a = CNull /\ a_wall a = CNull).
Proof.
  intros e w c (K1 & K2 & K3 & K4 & K5) C.
  assert (LP : forall i o, exists_field w i o -> forall p, In p (pointers (n_arr o)) -> live w p).
  { intros i o O p I'. unfold pointers in I'. rewrite in_app_iff in I'. destruct I' as [I'|I'].
    - apply (K1 i). exists o. split; assumption.
    - destruct (a_psi (n_arr o)) as [q|] eqn:E; [|destruct I']. destruct I' as [<-|[]]. apply (K4 i). exists o. split; assumption. }
  destruct c as [v|p|p v|a|i|i|i|i]; cbn [careful] in C.
  - left. eexists _, _. split; [reflexivity|].
    assert (LV : forall p, live w p -> live (mkW (w_heap w ++ [Some v]) (w_objs w)) p).
    { intros p L. pose proof (live_len _ _ L). unfold live in *. cbn [w_heap]. now rewrite nth_error_app1. }
    split; [intros i p O; apply LV, (K1 i p O)|]. split; [exact K2|]. split; [exact K3|]. split; [|exact K5].
    intros i p O. apply LV, (K4 i p O).
  - left. destruct C as (L & NO & NF).
    assert (F : fre (w_heap w) p = Ok (upd (w_heap w) p None)) by (apply fre_ok; split; [exact L|reflexivity]).
    eexists _, _. cbn [step]. rewrite F. cbn [obind]. split; [reflexivity|].
    assert (LV : forall q, q <> p -> live w q -> live (mkW (upd (w_heap w) p None) (w_objs w)) q).
    { intros q N (x & X). exists x. cbn [w_heap]. now rewrite upd_other by congruence. }
    split; [intros i q O; apply LV; [intros ->; exact (NO i O)|exact (K1 i q O)]|]. split; [exact K2|]. split; [exact K3|].
    split; [|exact K5]. intros i q O. apply LV; [intros ->; exact (NF i O)|exact (K4 i q O)].
  - left. destruct C as (x & X). assert (F := X). apply rd_ok in F. eexists _, _. cbn [step]. rewrite F. cbn [obind]. split; [reflexivity|].
    assert (LV : forall q, live w q -> live (mkW (upd (w_heap w) p (Some v)) (w_objs w)) q).
    { intros q (y & Y). unfold live. cbn [w_heap]. destruct (Nat.eq_dec p q) as [->|N].
      - exists v. exact (upd_same _ _ _ _ _ Y).
      - exists y. now rewrite upd_other by exact N. }
    split; [intros i q O; apply LV, (K1 i q O)|]. split; [exact K2|]. split; [exact K3|]. split; [|exact K5].
    intros i q O. apply LV, (K4 i q O).
  - destruct C as (ND & C1 & C2 & HP).
    destruct (make_defined _ (w_heap w) a) as (U & T); [|exact HP|].
    { intros p I'. unfold pointers in I'. rewrite in_app_iff in I'. destruct I' as [I'|I']; [exact (proj1 (C1 p I'))|].
      destruct (a_psi a) as [q|] eqn:E; [|destruct I']. destruct I' as [<-|[]]. exact (proj1 (C2 q eq_refl)). }
    cbn [step]. destruct (make (w_heap w) a) as [o| |] eqn:M; cbn [obind].
    + left. eexists _, _. split; [reflexivity|]. destruct (make_inv _ _ _ _ M) as (_ & AR & _ & _ & MP).
      set (w' := mkW (w_heap w) (w_objs w ++ [Some o])).
      assert (EX : forall i o', exists_field w' i o' -> exists_field w i o' \/ (i = length (w_objs w) /\ o' = o)).
      { intros i o' X. apply app_last in X. exact X. }
      assert (LN : forall i o', exists_field w i o' -> i < length (w_objs w)).
      { intros i o' X. apply nth_error_Some. unfold exists_field in X. congruence. }
      split; [|split; [|split; [|split]]].
      * intros i p (o' & X & I'). destruct (EX _ _ X) as [Y|(_ & ->)]; [apply (K1 i); exists o'; split; assumption|].
        rewrite AR in I'. exact (proj1 (C1 p I')).
      * intros i o' X. destruct (EX _ _ X) as [Y|(_ & ->)]; [exact (K2 _ _ Y)|]. rewrite AR. split; assumption.
      * intros i j p (o1 & X1 & I1) (o2 & X2 & I2).
        destruct (EX _ _ X1) as [Y1|(E1 & ->)], (EX _ _ X2) as [Y2|(E2 & ->)].
        -- apply (K3 i j p); [exists o1|exists o2]; split; assumption.
        -- exfalso. rewrite AR in I2. destruct (C1 p I2) as (_ & Z & _). apply (Z i). exists o1. split; assumption.
        -- exfalso. rewrite AR in I1. destruct (C1 p I1) as (_ & Z & _). apply (Z j). exists o2. split; assumption.
        -- congruence.
      * intros i p (o' & X & E). destruct (EX _ _ X) as [Y|(_ & ->)]; [apply (K4 i); exists o'; split; assumption|].
        rewrite AR in E. exact (proj1 (C2 p E)).
      * intros i j p (o1 & X1 & I1) (o2 & X2 & I2).
        destruct (EX _ _ X1) as [Y1|(E1 & ->)], (EX _ _ X2) as [Y2|(E2 & ->)].
        -- apply (K5 i j p); [exists o1|exists o2]; split; assumption.
        -- exfalso. rewrite AR in I2. destruct (C2 p I2) as (_ & Z). apply (Z i). exists o1. split; assumption.
        -- exfalso. rewrite AR in I1. destruct (C1 p I1) as (_ & _ & Z). apply (Z j). exists o2. split; assumption.
        -- congruence.
    + right. split; [reflexivity|]. exists a. split; [reflexivity|]. apply T. reflexivity.
    + congruence.
  - left. destruct C as (o & O). destruct (clone_defined _ (w_heap w) e o (LP i o O) (proj2 (K2 i o O))) as (h' & o' & M).
    cbn [step]. pose proof O as O1. apply object_ok in O1. rewrite O1. cbn [obind]. rewrite M. cbn [obind fst snd].
    eexists _, _. split; [reflexivity|]. destruct (clone_inv _ _ _ _ _ _ M) as (ext & EH & _ & B & ND & _).
    set (w' := mkW h' (w_objs w ++ [Some o'])).
    assert (EX : forall k x, exists_field w' k x -> exists_field w k x \/ (k = length (w_objs w) /\ x = o')).
    { intros k x X. apply app_last in X. exact X. }
    assert (LV : forall p, live w p -> live w' p).
    { intros p L. pose proof (live_len _ _ L). unfold live, w' in *. cbn [w_heap]. subst h'. now rewrite nth_error_app1. }
    assert (NEW : forall p, In p (pointers (n_arr o')) -> live w' p).
    { intros p I'. specialize (B p I'). unfold live, w'. cbn [w_heap]. subst h'. rewrite nth_error_app2 by lia.
      rewrite nth_error_map. rewrite app_length, map_length in B.
      destruct (nth_error ext (p - length (w_heap w))) as [v|] eqn:E; [exists v; reflexivity|]. apply nth_error_None in E. lia. }
    assert (OLD : forall k x p, exists_field w k x -> In p (pointers (n_arr x)) -> In p (pointers (n_arr o')) -> False).
    { intros k x p X I1 I2. specialize (LP k x X p I1). apply live_len in LP. specialize (B p I2). lia. }
    split; [|split; [|split; [|split]]].
    + intros k p (x & X & I'). destruct (EX _ _ X) as [Y|(_ & ->)]; [apply LV, (K1 k); exists x; split; assumption|].
      apply NEW. unfold pointers. rewrite in_app_iff. now left.
    + intros k x X. destruct (EX _ _ X) as [Y|(_ & ->)]; [exact (K2 _ _ Y)|]. split; [|exact (clone_points _ _ _ _ _ M)]. unfold pointers in ND.
      clear - ND. revert ND. generalize (owned (n_arr o')) as l. intro l. induction l as [|u l IH]; intro ND; [constructor|].
      cbn [app] in ND. apply NoDup_cons_iff in ND. destruct ND as (NI & ND). constructor; [|exact (IH ND)].
      intro I'. apply NI. rewrite in_app_iff. now left.
    + intros k j p (x & X & I1) (y & Y & I2).
      destruct (EX _ _ X) as [X'|(E1 & ->)], (EX _ _ Y) as [Y'|(E2 & ->)].
      * apply (K3 k j p); [exists x|exists y]; split; assumption.
      * exfalso. apply (OLD k x p X'); unfold pointers; rewrite in_app_iff; now left.
      * exfalso. apply (OLD j y p Y'); unfold pointers; rewrite in_app_iff; now left.
      * congruence.
    + intros k p (x & X & E). destruct (EX _ _ X) as [Y|(_ & ->)]; [apply LV, (K4 k); exists x; split; assumption|].
      apply NEW. exact (psi_pointers _ _ E).
    + intros k j p (x & X & I1) (y & Y & I2).
      destruct (EX _ _ X) as [X'|(E1 & ->)], (EX _ _ Y) as [Y'|(E2 & ->)].
      * apply (K5 k j p); [exists x|exists y]; split; assumption.
      * exfalso. apply (OLD k x p X'); [unfold pointers; rewrite in_app_iff; now left|exact (psi_pointers _ _ I2)].
      * exfalso. apply (OLD j y p Y'); [exact (psi_pointers _ _ I2)|unfold pointers; rewrite in_app_iff; now left].
      * congruence.
  - left. destruct C as (o & O). cbn [step]. apply object_ok in O. rewrite O. cbn [obind]. eexists _, _. split; [reflexivity|].
    exact (conj K1 (conj K2 (conj K3 (conj K4 K5)))).
  - left. destruct C as (o & r & z & O & D). cbn [step]. pose proof O as O1. apply object_ok in O1. rewrite O1. cbn [obind].
    unfold ask_domain. rewrite D.
    destruct (rd_all_defined _ [r; z] (w_heap w)) as (vs & V & _).
    { intros p I'. apply (LP i o O). unfold pointers, owned. unfold domain_of in D. rewrite !in_app_iff.
      destruct (given (a_wall (n_arr o))); rewrite D; cbn [cont_arrays]; tauto. }
    rewrite V. cbn [obind]. eexists _, _. split; [reflexivity|]. exact (conj K1 (conj K2 (conj K3 (conj K4 K5)))).
  - left. destruct C as (o & O).
    destruct (fre_all_defined _ (owned (n_arr o)) (w_heap w)) as (h' & F).
    { exact (proj1 (K2 i o O)). }
    { intros p I'. apply (K1 i). exists o. split; assumption. }
    assert (S1 : step e w (Delete i) = Ok (mkW h' (drop (w_objs w) i), RNothing)).
    { cbn [step]. pose proof O as O1. apply object_ok in O1. rewrite O1. cbn [obind]. rewrite F. reflexivity. }
    eexists _, _. split; [exact S1|]. destruct (delete_effect _ _ _ _ _ _ S1 O) as (D1 & D2 & D3).
    set (w' := mkW h' (drop (w_objs w) i)) in *.
    assert (OW : forall j p, owns w' j p -> j <> i /\ owns w j p).
    { intros j p (x & X & I'). apply D3 in X. destruct X as (N & X). split; [exact N|exists x; split; assumption]. }
    assert (FL : forall j p, flux_array w' j p -> j <> i /\ flux_array w j p).
    { intros j p (x & X & I'). apply D3 in X. destruct X as (N & X). split; [exact N|exists x; split; assumption]. }
    split; [|split; [|split; [|split]]].
    + intros j p X. destruct (OW _ _ X) as (N & Y). unfold live. rewrite D2; [exact (K1 j p Y)|]. intro I'.
      apply N, (K3 j i p Y). exists o. split; assumption.
    + intros j x X. apply D3 in X. exact (K2 _ _ (proj2 X)).
    + intros j k p X Y. apply (K3 j k p); [exact (proj2 (OW _ _ X))|exact (proj2 (OW _ _ Y))].
    + intros j p X. destruct (FL _ _ X) as (N & Y). unfold live. rewrite D2; [exact (K4 j p Y)|]. intro I'.
      apply N. symmetry. apply (K5 i j p); [exists o; split; assumption|exact Y].
    + intros j k p X Y. apply (K5 j k p); [exact (proj2 (OW _ _ X))|exact (proj2 (FL _ _ Y))].
Qed.

Lemma careful_run : forall e cs w, well_kept w -> careful_program e w cs ->
  exists w', run e w cs = Ok w' /\ well_kept w'.
Proof.
  intros e cs. induction cs as [|c cs IH]; intros w K C; [exists w; split; [reflexivity|exact K]|].
  cbn [careful_program] in C. destruct C as (C1 & C2). cbn [run].
  destruct (careful_step e w c K C1) as [(w' & r & S1 & K')|(S1 & _)]; rewrite S1 in *.
  - exact (IH w' K' C2).
  - exact (IH w K C2).
Qed.

(** Evaluations and clones. *)
Lemma evaluate_const : forall e w a w1 i cs w2, step e w (MakeField a) = Ok (w1, RField i) ->
  run e w1 cs = Ok w2 -> ~ In (Delete i) cs ->
  exists vs, rd_all (w_heap w) (tables a) = Ok vs /\ step e w2 (Evaluate i) = Ok (w2, RValues vs).
Proof.
  intros e w a w1 i cs w2 H R N. apply step_inv in H. destruct H as (o & M & -> & EI). injection EI as ->.
  destruct (make_inv _ _ _ _ M) as (_ & AR & T & _). exists (n_spline o). split; [exact T|].
  assert (O : exists_field (mkW (w_heap w) (w_objs w ++ [Some o])) (length (w_objs w)) o).
  { unfold exists_field. cbn [w_objs]. rewrite nth_error_app2, Nat.sub_diag by lia. reflexivity. }
  apply (run_field _ _ _ _ _ _ R O) in N. cbn [step]. apply object_ok in N. rewrite N. reflexivity.
Qed.

Lemma domain_now : forall e w a w1 i cs w2, step e w (MakeField a) = Ok (w1, RField i) ->
  run e w1 cs = Ok w2 -> ~ In (Delete i) cs ->
  step e w2 (AskDomain i) =
    match domain_of a with
    | CPoints r z => obind (rd_all (w_heap w2) [r; z]) (fun vs => Ok (w2, RValues vs))
    | _ => UB
    end.
Proof.
  intros e w a w1 i cs w2 H R N. apply step_inv in H. destruct H as (o & M & -> & EI). injection EI as ->.
  destruct (make_inv _ _ _ _ M) as (_ & AR & T & _).
  assert (O : exists_field (mkW (w_heap w) (w_objs w ++ [Some o])) (length (w_objs w)) o).
  { unfold exists_field. cbn [w_objs]. rewrite nth_error_app2, Nat.sub_diag by lia. reflexivity. }
  apply (run_field _ _ _ _ _ _ R O) in N. cbn [step]. apply object_ok in N. rewrite N. cbn [obind]. unfold ask_domain.
  rewrite AR. destruct (domain_of a); reflexivity.
Qed.

Lemma clone_apart : forall e w i w1 n o cs w2, exists_field w i o ->
  (forall k p, owns w k p -> p < length (w_heap w)) ->
  step e w (Clone i) = Ok (w1, RField n) -> run e w1 cs = Ok w2 -> ~ In (Delete n) cs ->
  (forall c p, In c cs -> length (w_heap w) <= p < length (w_heap w1) -> ~ names c p) ->
  (exists vs, rd_all (w_heap w) (tables (n_arr o)) = Ok vs /\ step e w2 (Evaluate n) = Ok (w2, RValues vs)) /\
  (forall r z, a_wall (n_arr o) = CPoints r z ->
     step e w2 (AskDomain n) = obind (rd_all (w_heap w) [r; z]) (fun vs => Ok (w2, RValues vs))) /\
  step e w2 (Delete n) <> UB.
Proof.
  intros e w i w1 n o cs w2 O AL H R N ND. apply step_inv in H.
  destruct H as (x & h' & o' & X & M & -> & EI). injection EI as ->.
  assert (x = o) by (unfold exists_field in *; congruence). subst x.
  destruct (clone_inv _ _ _ _ _ _ M) as (ext & EH & T & B & NDP & _ & CS & CW & _).
  set (w1 := mkW h' (w_objs w ++ [Some o'])) in *.
  assert (O' : exists_field w1 (length (w_objs w)) o').
  { unfold exists_field, w1. cbn [w_objs]. rewrite nth_error_app2, Nat.sub_diag by lia. reflexivity. }
  pose proof (run_field _ _ _ _ _ _ R O' N) as O2. cbn [w_heap w1] in ND.
  assert (CELL : forall p, In p (pointers (n_arr o')) -> nth_error (w_heap w2) p = nth_error h' p).
  { intros p I'. rewrite (run_cell _ _ _ _ p R).
    - reflexivity.
    - cbn [w1 w_heap]. exact (proj2 (B p I')).
    - intros c IC. apply ND; [exact IC|]. exact (B p I').
    - intros k (y & Y & IY). unfold exists_field, w1 in Y. cbn [w_objs] in Y. apply app_last in Y.
      destruct Y as [Y|(-> & _)]; [|exact N]. exfalso.
      assert (p < length (w_heap w)) by (apply (AL k); exists y; split; assumption). specialize (B p I'). lia. }
  assert (LV : forall p, In p (pointers (n_arr o')) -> live w2 p).
  { intros p I'. unfold live. rewrite (CELL p I'). specialize (B p I'). subst h'. rewrite nth_error_app2 by lia.
    rewrite nth_error_map. rewrite app_length, map_length in B.
    destruct (nth_error ext (p - length (w_heap w))) as [v|] eqn:E; [exists v; reflexivity|]. apply nth_error_None in E. lia. }
  split; [|split].
  - exists (n_spline o'). split; [exact T|]. cbn [step]. apply object_ok in O2. rewrite O2. reflexivity.
  - intros r z E. destruct (CW r z E) as (r' & z' & E' & RD). cbn [step]. pose proof O2 as O3. apply object_ok in O3. rewrite O3.
    cbn [obind]. unfold ask_domain, domain_of. rewrite E'. cbn [given]. rewrite <- RD.
    rewrite (rd_all_ext _ [r'; z'] h' (w_heap w2)); [reflexivity|].
    intros p I'. apply CELL. unfold pointers, owned. rewrite E'. cbn [cont_arrays]. rewrite !in_app_iff. tauto.
  - apply delete_iff. exists o'. split; [exact O2|]. split.
    + clear - NDP. unfold pointers in NDP. revert NDP. generalize (owned (n_arr o')) as l. intro l.
      induction l as [|u l IH]; intro ND; [constructor|].
      cbn [app] in ND. apply NoDup_cons_iff in ND. destruct ND as (NI & ND). constructor; [|exact (IH ND)].
      intro I'. apply NI. rewrite in_app_iff. now left.
    + intros p I'. apply LV. unfold pointers. rewrite in_app_iff. now left.
Qed.
End Proofs2.
