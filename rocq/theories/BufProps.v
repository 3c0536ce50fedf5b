(** C100: what the arrays and structures returned by magnetic fields hold. *)
From Coq Require Import Reals Lra.
From Verif Require Import Base BufModel BufSpec BufProofs.

(** The array Eval returns holds, whenever it is read while the field exists, the field vector
    at the point of the last evaluation on that object, as the field was then: the last Eval,
    or for a numeric field the last of Eval and EvalDerivatives. *)
Theorem C100_array : forall w h1 c h2 w1 w' i p o,
  run w h1 = Ok w1 -> obj w1 i = Ok o -> evaluates (o_field o) i p c ->
  run w (h1 ++ c :: h2) = Ok w' ->
  (forall c' q, In c' h2 -> ~ evaluates (o_field o) i q c') -> ~ In (DeleteField i) h2 ->
  read_vec w' i = Ok (gB (fun_of (o_field o)) p).
Proof. exact array_last. Qed.
Print Assumptions C100_array.

(** The structure EvalDerivatives returns, and the Jacobian it (or a copy of it) points to, hold
    what belongs to the last EvalDerivatives on the object. *)
Theorem C100_structure : forall w h1 h2 w1 w' i p o,
  run w h1 = Ok w1 -> obj w1 i = Ok o ->
  run w (h1 ++ EvalDerivatives i p :: h2) = Ok w' ->
  (forall q, ~ In (EvalDerivatives i q) h2) -> ~ In (DeleteField i) h2 ->
  read_mag w' i = Ok (gD (fun_of (o_field o)) p) /\ read_jac w' i = Ok (gJ (fun_of (o_field o)) p).
Proof. exact structure_last. Qed.
Print Assumptions C100_structure.

(** Likewise for the flux and its derivatives. *)
Theorem C100_flux : forall w h1 h2 w1 w' i p o,
  run w h1 = Ok w1 -> obj w1 i = Ok o -> (forall g, o_field o <> Numeric g false) ->
  run w (h1 ++ EvalFluxDerivatives i p :: h2) = Ok w' ->
  (forall q, ~ In (EvalFluxDerivatives i q) h2) -> ~ In (DeleteField i) h2 ->
  read_flux w' i = Ok (gF (fun_of (o_field o)) p).
Proof.
  intros w h1 h2 w1 w' i p o R1 O F. apply (flux_last w h1 h2 w1 w' i p o R1 O).
  destruct (o_field o) as [a b|g [|]]; [reflexivity|reflexivity|]. exfalso. exact (F g eq_refl).
Qed.
Print Assumptions C100_flux.

(** Calls on other objects, in particular on clones, change nothing about an object. *)
Theorem C100_separate : forall cs w w' j, run w cs = Ok w' ->
  (forall c, In c cs -> callee c <> Some j) -> j < length w -> nth_error w' j = nth_error w j.
Proof. exact run_other. Qed.
Print Assumptions C100_separate.

(** A clone is a new object that is the same field as the original was at that time, whatever
    is done to the original afterwards, its deletion included. *)
Theorem C100_clone : forall w i cs w', run w (CloneField i :: cs) = Ok w' ->
  (forall c, In c cs -> callee c <> Some (length w)) ->
  exists o n, obj w i = Ok o /\ obj w' (length w) = Ok n /\ o_field n = o_field o.
Proof.
  intros w i cs w' H N. cbn [run step] in H. destruct (obj w i) as [o| |] eqn:O; cbn [obind] in H; try discriminate H.
  - exists o, (fresh (o_field o)). split; [reflexivity|]. split; [|reflexivity].
    apply obj_ok. rewrite (run_other _ _ _ (length w) H N).
    + rewrite nth_error_app2, Nat.sub_diag by lia. reflexivity.
    + rewrite app_length. cbn. lia.
  - unfold obj in O. destruct (nth_error w i) as [[x|]|]; discriminate O.
Qed.
Print Assumptions C100_clone.

(** The array a field returned may be passed as the point to evaluate at, to the same field
    too: the numbers in it at the time of the call are used. *)
Theorem C100_argument : forall w i j o p, obj w i = Ok o -> read_vec w j = Ok p ->
  exists w1 w2, eval_at w i j = Ok w1 /\ read_vec w1 i = Ok (gB (fun_of (o_field o)) p) /\
    derivatives_at w i j = Ok w2 /\ read_mag w2 i = Ok (gD (fun_of (o_field o)) p) /\
    read_jac w2 i = Ok (gJ (fun_of (o_field o)) p).
Proof.
  intros w i j o p O V. unfold eval_at, derivatives_at. rewrite V. cbn [obind step]. rewrite O. cbn [obind].
  eexists _, _. split; [reflexivity|]. unfold read_vec, read_mag, read_jac.
  rewrite (obj_put _ _ _ (do_eval o p) O), (obj_put _ _ _ (do_derivatives o p) O). cbn [obind]. repeat split; reflexivity.
Qed.
Print Assumptions C100_argument.

(** A call throws exactly if it asks a numeric field without flux coordinates for the flux (or
    is a SetB0 on a numeric field, which is no call at all); it then changes nothing, and so
    does EvalFlux when it returns. *)
Theorem C100_throw : forall w c,
  (step w c = Throw <->
   exists i o, callee c = Some i /\ obj w i = Ok o /\
    ((exists p, c = EvalFlux i p \/ c = EvalFluxDerivatives i p) /\ (exists g, o_field o = Numeric g false) \/
     (exists b, c = SetB0 i b) /\ is_numeric (o_field o))) /\
  (step w c = Throw -> forall h, run w (c :: h) = run w h) /\
  (forall i p w', c = EvalFlux i p -> step w c = Ok w' -> w' = w).
Proof.
  intros w c. split.
  { rewrite step_throw. split; intros (i & o & C & O & [(X & F)|X]); exists i, o; split; try exact C; split; try exact O; try (right; exact X); left; (split; [exact X|]).
    - destruct (o_field o) as [a b|g [|]]; [discriminate F|discriminate F|]. exists g. reflexivity.
    - destruct F as (g & ->). reflexivity. }
  split.
  - intros H h. cbn [run]. now rewrite H.
  - intros i p w' -> H. apply step_inv in H. destruct H as (o & _ & _ & E). exact E.
Qed.
Print Assumptions C100_throw.

(** Which functions a field evaluates: those of its kind, for an analytical field with the value
    of B0 set last. *)
Theorem C100_functions :
  (forall w w1 w2 i o a b0 b p, obj w i = Ok o -> o_field o = Analytical a b0 ->
     step w (SetB0 i b) = Ok w1 ->
     (step w1 (Eval i p) = Ok w2 -> read_vec w2 i = Ok (gB (a b) p)) /\
     (step w1 (EvalDerivatives i p) = Ok w2 -> read_mag w2 i = Ok (gD (a b) p) /\ read_jac w2 i = Ok (gJ (a b) p)) /\
     (step w1 (EvalFluxDerivatives i p) = Ok w2 -> read_flux w2 i = Ok (gF (a b) p))) /\
  (forall w i o g fl, obj w i = Ok o -> o_field o = Numeric g fl ->
     forall p w1, (step w (Eval i p) = Ok w1 -> read_vec w1 i = Ok (gB g p)) /\
       (step w (EvalDerivatives i p) = Ok w1 -> read_vec w1 i = Ok (gB g p) /\ read_mag w1 i = Ok (gD g p) /\ read_jac w1 i = Ok (gJ g p)) /\
       (step w (EvalFluxDerivatives i p) = Ok w1 -> read_flux w1 i = Ok (gF g p))) /\
  (forall w i o a b0, obj w i = Ok o -> o_field o = Analytical a b0 ->
     forall p w1, (step w (Eval i p) = Ok w1 -> read_vec w1 i = Ok (gB (a b0) p)) /\
       (step w (EvalDerivatives i p) = Ok w1 -> read_mag w1 i = Ok (gD (a b0) p) /\ read_jac w1 i = Ok (gJ (a b0) p)) /\
       (step w (EvalFluxDerivatives i p) = Ok w1 -> read_flux w1 i = Ok (gF (a b0) p))).
Proof.
  assert (forall w i o f, obj w i = Ok o -> fun_of (o_field o) = f ->
    forall p w1, (step w (Eval i p) = Ok w1 -> read_vec w1 i = Ok (gB f p)) /\
       (step w (EvalDerivatives i p) = Ok w1 -> read_mag w1 i = Ok (gD f p) /\ read_jac w1 i = Ok (gJ f p)) /\
       (step w (EvalFluxDerivatives i p) = Ok w1 -> read_flux w1 i = Ok (gF f p))) as G.
  { intros w i o f O F p w1. cbn [step]. rewrite O. cbn [obind]. split; [|split].
    - intro H. injection H as <-. unfold read_vec. rewrite (obj_put _ _ _ (do_eval o p) O). cbn [obind]. unfold do_eval. cbn [o_vec]. now rewrite F.
    - intro H. injection H as <-. unfold read_mag, read_jac. rewrite (obj_put _ _ _ (do_derivatives o p) O). cbn [obind].
      unfold do_derivatives. cbn [o_mag o_jac]. rewrite F. split; reflexivity.
    - destruct (has_flux (o_field o)); [|discriminate]. intro H. injection H as <-. unfold read_flux.
      rewrite (obj_put _ _ _ (do_flux o p) O). cbn [obind]. unfold do_flux. cbn [o_flux]. now rewrite F. }
  split; [|split].
  - intros w w1 w2 i o a b0 b p O F H. cbn [step] in H. rewrite O in H. cbn [obind] in H. unfold do_set in H. rewrite F in H. cbn [obind] in H.
    injection H as <-. apply (G _ i (mkObj (Analytical a b) (o_vec o) (o_jac o) (o_mag o) (o_flux o)) (a b)); [exact (obj_put _ _ _ _ O)|reflexivity].
  - intros w i o g fl O F p w1. destruct (G w i o g O) with (p := p) (w1 := w1) as (G1 & G2 & G3); [now rewrite F|].
    split; [exact G1|]. split; [|exact G3]. intro H. split; [|exact (G2 H)].
    cbn [step] in H. rewrite O in H. cbn [obind] in H. injection H as <-. unfold read_vec. rewrite (obj_put _ _ _ (do_derivatives o p) O). cbn [obind].
    unfold do_derivatives. cbn [o_vec]. rewrite F. reflexivity.
  - intros w i o a b0 O F. apply (G w i o (a b0) O). now rewrite F.
Qed.
Print Assumptions C100_functions.

(** Storage that no call has written since the object was made, as a new field or as a clone, must
    not be read. *)
Theorem C100_unwritten : forall w c cs w' f, (c = NewField f \/ exists i o, c = CloneField i /\ obj w i = Ok o /\ o_field o = f) ->
  run w (c :: cs) = Ok w' -> ~ In (DeleteField (length w)) cs ->
  ((forall d q, In d cs -> ~ evaluates f (length w) q d) -> read_vec w' (length w) = UB) /\
  ((forall q, ~ In (EvalDerivatives (length w) q) cs) -> read_mag w' (length w) = UB /\ read_jac w' (length w) = UB) /\
  ((forall q, ~ In (EvalFluxDerivatives (length w) q) cs) -> read_flux w' (length w) = UB).
Proof.
  intros w c cs w' f C H N.
  assert (run (w ++ [Some (fresh f)]) cs = Ok w') as H'.
  { destruct C as [->|(i & o & -> & O & <-)]; cbn [run step] in H; [exact H|]. rewrite O in H. exact H. }
  assert (obj (w ++ [Some (fresh f)]) (length w) = Ok (fresh f)) as O1.
  { apply obj_ok. rewrite nth_error_app2, Nat.sub_diag by lia. reflexivity. }
  destruct (run_obj _ _ _ _ _ H' O1 N) as (o & O & _ & V & J & F & _). cbn [fresh o_field o_vec o_jac o_mag o_flux] in V, J, F.
  unfold read_vec, read_mag, read_jac, read_flux. rewrite O. cbn [obind]. split; [|split].
  - intro X. rewrite (V X). reflexivity.
  - intro X. destruct (J X) as (-> & ->). split; reflexivity.
  - intro X. rewrite (F X). reflexivity.
Qed.
Print Assumptions C100_unwritten.

(** Once a field is deleted nothing it returned may be read, and no call may be made on it. *)
Theorem C100_deleted : forall w h1 h2 w' i, run w (h1 ++ DeleteField i :: h2) = Ok w' ->
  obj w' i = UB /\ read_vec w' i = UB /\ read_mag w' i = UB /\ read_jac w' i = UB /\ read_flux w' i = UB /\
  forall c, In c h2 -> callee c <> Some i.
Proof. exact deleted. Qed.
Print Assumptions C100_deleted.

(** A program is defined exactly if every call is on an object made before and not deleted
    before. *)
Theorem C100_defined : forall cs, run [] cs <> UB <-> on_live_objects cs.
Proof. exact run_defined. Qed.
Print Assumptions C100_defined.

(** Fields for the counterexamples and the example: B(p) = b p and B(p) = p. *)
Definition scaled (b : R) : funs :=
  mkFuns (fun p => let '(x, y, z) := p in (b * x, b * y, b * z)%R)
    (fun p => (p, p, p, b)) (fun p => (p, p, p)) (fun p => p) (fun _ => b).

Definition two_fields : world :=
  [Some (fresh (Analytical scaled 2)); Some (fresh (Numeric (scaled 1) false))].

Definition p1 : vec := (1, 2, 3)%R.
Definition p2 : vec := (4, 5, 6)%R.

(** Two results of the same object cannot be held at once: the first changes. *)
Theorem C100_two_results_refuted :
  ~ (forall w i p q v w1 w2, step w (Eval i p) = Ok w1 -> read_vec w1 i = Ok v ->
       step w1 (Eval i q) = Ok w2 -> read_vec w2 i = Ok v).
Proof.
  intro H. specialize (H two_fields 1 p1 p2 (1 * 1, 1 * 2, 1 * 3)%R _ _ eq_refl eq_refl eq_refl).
  cbn in H. injection H as A B C. lra.
Qed.
Print Assumptions C100_two_results_refuted.

(** EvalDerivatives leaves the array of Eval alone for analytical fields but not for numeric
    ones. *)
Theorem C100_derivatives_keep_array_refuted :
  (forall w i p w1 o, obj w i = Ok o -> ~ is_numeric (o_field o) -> step w (EvalDerivatives i p) = Ok w1 ->
     read_vec w1 i = read_vec w i) /\
  ~ (forall w i p w1, step w (EvalDerivatives i p) = Ok w1 -> read_vec w1 i = read_vec w i).
Proof.
  split.
  - intros w i p w1 o O N H. destruct (step_obj _ _ _ _ _ H O) as (o' & O' & _ & V & _); [discriminate|].
    unfold read_vec. rewrite O, O'. cbn [obind]. rewrite V; [reflexivity|].
    intros q [E|(_ & X)]; [discriminate E|exact (N X)].
  - intro H. specialize (H (put two_fields 1 (Some (do_eval (fresh (Numeric (scaled 1) false)) p1))) 1 p2 _ eq_refl).
    cbn in H. injection H as A B C. lra.
Qed.
Print Assumptions C100_derivatives_keep_array_refuted.

(** Copying the structure does not preserve the Jacobian. *)
Theorem C100_copied_jacobian_refuted :
  ~ (forall w i p q m w1 w2, step w (EvalDerivatives i p) = Ok w1 -> read_jac w1 i = Ok m ->
       step w1 (EvalDerivatives i q) = Ok w2 -> read_jac w2 i = Ok m).
Proof.
  intro H. specialize (H two_fields 0 p1 p2 (p1, p1, p1) _ _ eq_refl eq_refl eq_refl).
  cbn in H. unfold p1, p2 in H. injection H as A B C. lra.
Qed.
Print Assumptions C100_copied_jacobian_refuted.

(** Two fields are made; the analytical one is evaluated, scaled, cloned and deleted. *)
Example C100_example :
  let h1 := [NewField (Analytical scaled 2); NewField (Numeric (scaled 1) false); Eval 1 p2] in
  let h2 := [EvalDerivatives 0 p2; SetB0 0 7; CloneField 0; Eval 1 p1; EvalFlux 1 p1] in
  exists w1 w2 w3 o, run [] h1 = Ok w1 /\ obj w1 0 = Ok o /\ evaluates (o_field o) 0 p1 (Eval 0 p1) /\
    run [] (h1 ++ Eval 0 p1 :: h2) = Ok w2 /\
    (forall c' q, In c' h2 -> ~ evaluates (o_field o) 0 q c') /\ ~ In (DeleteField 0) h2 /\
    read_vec w2 0 = Ok (2 * 1, 2 * 2, 2 * 3)%R /\ read_vec w2 2 = UB /\
    step w2 (EvalFluxDerivatives 1 p1) = Throw /\
    run w2 [DeleteField 0; Eval 2 p1; EvalDerivatives 2 p2] = Ok w3 /\
    read_vec w3 2 = Ok (7 * 1, 7 * 2, 7 * 3)%R /\ read_mag w3 2 = Ok (p2, p2, p2, 7%R) /\
    read_vec w3 0 = UB /\ step w3 (Eval 0 p1) = UB.
Proof.
  intros h1 h2. eexists _, _, _, _. split; [reflexivity|]. split; [reflexivity|]. split; [now left|].
  split; [reflexivity|].
  assert (A : ~ is_numeric (Analytical scaled 2)) by (intros (g & b & E); discriminate E).
  split.
  { intros c' q I' [E|(_ & X)]; [|exact (A X)]. subst c'. unfold h2 in I'. cbn [In] in I'.
    repeat destruct I' as [I'|I']; try discriminate I'; exact I'. }
  split. { intro I'. unfold h2 in I'. cbn [In] in I'. repeat destruct I' as [I'|I']; try discriminate I'; exact I'. }
  split; [reflexivity|]. split; [reflexivity|]. split; [reflexivity|]. split; [reflexivity|].
  repeat split; reflexivity.
Qed.
Print Assumptions C100_example.
