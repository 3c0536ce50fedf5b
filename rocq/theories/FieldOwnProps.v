(** C101: who owns the arrays of numeric magnetic fields. *)
From Verif Require Import Base FieldOwnModel FieldOwnSpec FieldOwnProofs FieldOwnProofs2.

(** A program that gives every array to at most one field and releases no array that a field
    uses is defined, whatever it makes, clones, evaluates and deletes and in whatever order. *)
Theorem C101_careful : forall A (e : A) cs w, well_kept w -> careful_program e w cs ->
  exists w', run e w cs = Ok w' /\ well_kept w'.
Proof. exact careful_run. Qed.
Print Assumptions C101_careful.

(** In such a program the only exception is that of a field with neither wall nor separatrix. *)
Theorem C101_call : forall A (e : A) w c, well_kept w -> careful w c ->
  (exists w' r, step e w c = Ok (w', r) /\ well_kept w') \/
  (step e w c = Throw /\ exists a, c = MakeField a /\ a_sep a = CNull /\ a_wall a = CNull).
Proof. exact careful_step. Qed.
Print Assumptions C101_call.

(** Contours are needed, and with points: none at all is refused, contours without points make
    the constructor read outside their arrays. *)
Theorem C101_no_points : forall A (e : A) w a, ~ has_points a ->
  (a_sep a = CNull /\ a_wall a = CNull -> step e w (MakeField a) = Throw) /\
  (a_sep a <> CNull \/ a_wall a <> CNull -> step e w (MakeField a) = UB).
Proof.
  intros A e w a N. cbn [step]. unfold make. split; [intros [-> ->]; reflexivity|]. intros G.
  replace (negb (given (a_sep a)) && negb (given (a_wall a)))%bool with false
    by (destruct (a_sep a), (a_wall a); try reflexivity; exfalso; destruct G as [G|G]; apply G; reflexivity).
  assert (R : radius_arrays a = []).
  { unfold radius_arrays. destruct (a_sep a) as [| |r z] eqn:E1; [..|exfalso; apply N; exists r, z; now left];
      (destruct (a_wall a) as [| |r' z'] eqn:E2; [reflexivity | reflexivity | exfalso; apply N; exists r', z'; now right]). }
  rewrite R. reflexivity.
Qed.
Print Assumptions C101_no_points.

(** Evaluation uses the tables as they were when the field was made, whatever happens to the
    arrays afterwards. *)
Theorem C101_evaluate : forall A (e : A) w a w1 i cs w2, step e w (MakeField a) = Ok (w1, RField i) ->
  run e w1 cs = Ok w2 -> ~ In (Delete i) cs ->
  exists vs, rd_all (w_heap w) (tables a) = Ok vs /\ step e w2 (Evaluate i) = Ok (w2, RValues vs).
Proof. exact evaluate_const. Qed.
Print Assumptions C101_evaluate.

(** The domain, in contrast, is that of the arrays as they are now; if the caller has released
    them, asking about the domain is undefined. *)
Theorem C101_domain : forall A (e : A) w a w1 i cs w2, step e w (MakeField a) = Ok (w1, RField i) ->
  run e w1 cs = Ok w2 -> ~ In (Delete i) cs ->
  step e w2 (AskDomain i) =
    match domain_of a with
    | CPoints r z => obind (rd_all (w_heap w2) [r; z]) (fun vs => Ok (w2, RValues vs))
    | _ => UB
    end.
Proof. exact domain_now. Qed.
Print Assumptions C101_domain.

(** A clone has arrays of its own: it evaluates to the contents the arrays of the original had
    when it was made, has the wall of then, and can be deleted, whatever is done to the
    original and its arrays. *)
Theorem C101_clone : forall A (e : A) w i w1 n o cs w2, exists_field w i o ->
  (forall k p, owns w k p -> p < length (w_heap w)) ->
  step e w (Clone i) = Ok (w1, RField n) -> run e w1 cs = Ok w2 -> ~ In (Delete n) cs ->
  (forall c p, In c cs -> length (w_heap w) <= p < length (w_heap w1) -> ~ names c p) ->
  (exists vs, rd_all (w_heap w) (tables (n_arr o)) = Ok vs /\ step e w2 (Evaluate n) = Ok (w2, RValues vs)) /\
  (forall r z, a_wall (n_arr o) = CPoints r z ->
     step e w2 (AskDomain n) = obind (rd_all (w_heap w) [r; z]) (fun vs => Ok (w2, RValues vs))) /\
  step e w2 (Delete n) <> UB.
Proof. exact clone_apart. Qed.
Print Assumptions C101_clone.

(** Deleting a field is defined exactly if every array it owns still exists and was given
    once. *)
Theorem C101_delete_defined : forall A (e : A) w i, step e w (Delete i) <> UB <->
  exists o, exists_field w i o /\ NoDup (owned (n_arr o)) /\ forall p, In p (owned (n_arr o)) -> live w p.
Proof. exact delete_iff. Qed.
Print Assumptions C101_delete_defined.

(** It releases exactly these arrays and removes this field only. *)
Theorem C101_delete_effect : forall A (e : A) w i o w' r, step e w (Delete i) = Ok (w', r) -> exists_field w i o ->
  (forall p, In p (owned (n_arr o)) -> released w' p) /\
  (forall p, ~ In p (owned (n_arr o)) -> nth_error (w_heap w') p = nth_error (w_heap w) p) /\
  (forall j o', exists_field w' j o' <-> j <> i /\ exists_field w j o').
Proof. exact delete_effect. Qed.
Print Assumptions C101_delete_effect.
(** In terms of what the field was made from: the arrays of the grid, and those of the wall and of the separatrix
    that have points, are released; no other array is touched. *)
Theorem C101_delete_arrays : forall A (e : A) w i o w' r, step e w (Delete i) = Ok (w', r) -> exists_field w i o ->
  (forall p, In p (a_grid (n_arr o)) -> released w' p) /\
  (forall p q, a_wall (n_arr o) = CPoints p q \/ a_sep (n_arr o) = CPoints p q -> released w' p /\ released w' q) /\
  (forall p, ~ In p (a_grid (n_arr o)) ->
     (forall q, a_wall (n_arr o) <> CPoints p q /\ a_wall (n_arr o) <> CPoints q p /\ a_sep (n_arr o) <> CPoints p q /\ a_sep (n_arr o) <> CPoints q p) ->
     nth_error (w_heap w') p = nth_error (w_heap w) p).
Proof.
  intros A e w i o w' r H E. destruct (delete_effect A e w i o w' r H E) as (D & K & _). unfold owned in D, K.
  split; [intros p Hp; apply D; apply in_or_app; left; exact Hp|]. split.
  - intros p q X. split; apply D; rewrite !in_app_iff; right; destruct X as [X|X]; rewrite X; cbn [cont_arrays In]; tauto.
  - intros p Hg Hc. apply K. rewrite !in_app_iff. intros [X|[X|X]]; [exact (Hg X)| |].
    + destruct (a_wall (n_arr o)) as [|r1 z1|r1 z1] eqn:W; cbn [cont_arrays In] in X; try contradiction.
      destruct X as [ <- |[ <- |[]]]; [destruct (Hc z1) as (Y & _)|destruct (Hc r1) as (_ & Y & _)]; apply Y; reflexivity.
    + destruct (a_sep (n_arr o)) as [|r1 z1|r1 z1] eqn:W; cbn [cont_arrays In] in X; try contradiction.
      destruct X as [ <- |[ <- |[]]]; [destruct (Hc z1) as (_ & _ & Y & _)|destruct (Hc r1) as (_ & _ & _ & Y)]; apply Y; reflexivity.
Qed.
Print Assumptions C101_delete_arrays.

(** A field one of whose arrays has been released by someone else can never be deleted. *)
Theorem C101_released : forall A (e : A) cs w i p, released w p -> owns w i p -> In (Delete i) cs -> run e w cs = UB.
Proof. exact released_delete. Qed.
Print Assumptions C101_released.

(** So of two fields that were given the same array at most one may be deleted. *)
Theorem C101_shared : forall A (e : A) w i j p cs1 cs2, i <> j -> owns w i p -> owns w j p ->
  In (Delete j) cs2 -> ~ In (Delete i) cs1 -> ~ In (Delete j) cs1 -> run e w (cs1 ++ Delete i :: cs2) = UB.
Proof.
  intros A e w i j p cs1 cs2 N (oi & Oi & Ii) (oj & Oj & Ij) D2 N1 N2. rewrite run_app.
  destruct (run e w cs1) as [w1| |] eqn:R1; cbn [obind]; [| |reflexivity].
  - pose proof (run_field _ _ _ _ _ _ _ R1 Oi N1) as Oi1. pose proof (run_field _ _ _ _ _ _ _ R1 Oj N2) as Oj1.
    cbn [run]. destruct (step e w1 (Delete i)) as [[w2 r]| |] eqn:S1; [| |reflexivity].
    + destruct (delete_effect _ _ _ _ _ _ _ S1 Oi1) as (D & _ & K).
      apply (released_delete _ e cs2 w2 j p); [exact (D p Ii)| |exact D2]. exists oj. split; [|exact Ij]. apply K. split; [congruence|exact Oj1].
    + exfalso. cbn [step] in S1. apply object_ok in Oi1. rewrite Oi1 in S1. cbn [obind] in S1.
      destruct (fre_all (w_heap w1) (owned (n_arr oi))) eqn:F; cbn [obind] in S1; try discriminate S1.
      exact (fre_all_not_throw _ _ _ F).
  - exfalso. clear - R1. revert w R1. induction cs1 as [|c cs1 IH]; intros w R1; cbn [run] in R1; [discriminate R1|].
    destruct (step e w c) as [[w' r]| |]; [exact (IH _ R1)|exact (IH _ R1)|discriminate R1].
Qed.
Print Assumptions C101_shared.

(** Concrete arrays 0 to 9: R, Z, Br, Bphi, Bz, wall (5, 6), flux (7), separatrix (8, 9). *)
Definition ten_arrays : world nat := mkW (map Some (seq 100 10)) [].
Definition with_wall : arrays := mkArrays [0; 1; 2; 3; 4] (Some 7) CNull (CPoints 5 6).
Definition with_sep : arrays := mkArrays [0; 1; 2; 3; 4] None (CPoints 8 9) CNull.

(** The caller keeps nothing it has given away: releasing an array after the field is deleted
    is undefined, except for the flux array, which is never released by the field. *)
Theorem C101_given_away_refuted :
  run 0 ten_arrays [MakeField with_wall; Delete 0; FreeArray 7] <> UB /\
  run 0 ten_arrays [MakeField with_wall; Delete 0; FreeArray 2] = UB /\
  run 0 ten_arrays [MakeField with_wall; FreeArray 2; Delete 0] = UB /\
  run 0 ten_arrays [MakeField with_wall; MakeField with_sep; Delete 0; Delete 1] = UB.
Proof. split; [discriminate|]. repeat split; reflexivity. Qed.
Print Assumptions C101_given_away_refuted.

(** A clone need not be the same field as its original: it is made from the arrays as they are,
    the original evaluates what they were. *)
Theorem C101_clone_same_refuted :
  ~ (forall (e : nat) cs w w' i n w1 r, run e w cs = Ok w' -> step e w' (Clone i) = Ok (w1, RField n) ->
       step e w1 (Evaluate i) = Ok (w1, r) -> step e w1 (Evaluate n) = Ok (w1, r)).
Proof.
  intro H. specialize (H 0 [MakeField with_wall; WriteArray 2 77] ten_arrays _ 0 1 _ _ eq_refl eq_refl eq_refl). discriminate H.
Qed.
Print Assumptions C101_clone_same_refuted.

(** A careful program with two fields, a clone and changes of arrays. *)
Example C101_example :
  let cs := [MakeField with_wall; Clone 0; WriteArray 5 55; AskDomain 0; AskDomain 1; Evaluate 1; Delete 0;
             FreeArray 7; MakeField (mkArrays [8; 9] None CNull CNull); Clone 1; Delete 1; Evaluate 2; AskDomain 2; Delete 2] in
  well_kept ten_arrays /\ careful_program 0 ten_arrays cs /\ (exists w', run 0 ten_arrays cs = Ok w') /\
  (exists w1, run 0 ten_arrays (firstn 6 cs) = Ok w1 /\ step 0 w1 (AskDomain 0) = Ok (w1, RValues [55; 106]) /\
     step 0 w1 (AskDomain 1) = Ok (w1, RValues [105; 106]) /\ step 0 w1 (Evaluate 1) = Ok (w1, RValues [100; 101; 102; 103; 104; 107])).
Proof.
  intro cs. split.
  { assert (NO : forall i o, ~ exists_field ten_arrays i o).
    { intros i o E. unfold exists_field in E. destruct i; discriminate E. }
    split; [|split; [|split; [|split]]].
    - intros i p (o & O & _). exfalso. exact (NO _ _ O).
    - intros i o O. exfalso. exact (NO _ _ O).
    - intros i j p (o & O & _). exfalso. exact (NO _ _ O).
    - intros i p (o & O & _). exfalso. exact (NO _ _ O).
    - intros i j p (o & O & _). exfalso. exact (NO _ _ O). }
  split; [|split; [eexists; vm_compute; reflexivity|eexists; split; [vm_compute; reflexivity|repeat split; vm_compute; reflexivity]]].
  assert (FLD : forall (w : world nat) i o, exists_field w i o -> nth_error (w_objs w) i = Some (Some o)) by auto.
  unfold cs. lazy -[In live exists_field owns flux_array not has_points].
  Ltac own := let i := fresh in let o := fresh in let E := fresh in let I' := fresh in
    intros i (o & E & I'); unfold exists_field in E; cbn -[In] in E;
    repeat (destruct i as [|i]; cbn -[In] in E; [try discriminate E; injection E as <-; cbn in I'; solve [repeat destruct I' as [I'|I']; try discriminate I'; exact I' | discriminate I' | lia]|]);
    discriminate E.
  Ltac lv := eexists; reflexivity.
  repeat match goal with
    | |- _ /\ _ => split
    | |- True => exact I
    | |- exists o, exists_field _ _ _ => eexists; reflexivity
    | |- live _ _ => eexists; reflexivity
    | |- exists o r z, _ => eexists _, _, _; split; reflexivity
    | |- NoDup _ => repeat constructor; cbn [In]; lia
    end; try own.
  - intros p I'. cbn in I'. repeat destruct I' as [<-|I']; try destruct I'; (split; [lv|split; own]).
  - intros p I'. injection I' as <-. split; [lv|own].
  - left. exists 5, 6. right. reflexivity.
  - intros p I'. cbn in I'. repeat destruct I' as [<-|I']; try destruct I'; (split; [lv|split; own]).
  - intros p I'. discriminate I'.
  - right. split; reflexivity.
Qed.
Print Assumptions C101_example.
