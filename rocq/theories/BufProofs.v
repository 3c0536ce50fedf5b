From Coq Require Import Reals.
From Verif Require Import Base BufModel BufSpec.

Lemma put_same : forall w i x o, nth_error w i = Some x -> nth_error (put w i o) i = Some o.
Proof.
  induction w as [|y w IH]; intros [|i] x o H; cbn in *; try discriminate; [reflexivity|].
  exact (IH _ _ _ H).
Qed.

Lemma put_other : forall w i j o, i <> j -> nth_error (put w i o) j = nth_error w j.
Proof.
  induction w as [|y w IH]; intros i j o N; [destruct i; reflexivity|].
  destruct i as [|i], j as [|j]; cbn; try reflexivity; [congruence|]. apply IH. congruence.
Qed.

Lemma put_length : forall w i o, length (put w i o) = length w.
Proof. induction w as [|y w IH]; intros [|i] o; cbn; try reflexivity. now rewrite IH. Qed.

Lemma obj_ok : forall w i o, obj w i = Ok o <-> nth_error w i = Some (Some o).
Proof.
  intros w i o. unfold obj. destruct (nth_error w i) as [[x|]|]; split; intro H; try discriminate; congruence.
Qed.

Lemma obj_nth : forall w w' i, nth_error w i = nth_error w' i -> obj w i = obj w' i.
Proof. intros w w' i H. unfold obj. now rewrite H. Qed.

Lemma obj_put : forall w i x o, obj w i = Ok x -> obj (put w i (Some o)) i = Ok o.
Proof. intros w i x o H. apply obj_ok. apply obj_ok in H. exact (put_same _ _ _ _ H). Qed.

Lemma obj_put_other : forall w i j o, i <> j -> obj (put w i o) j = obj w j.
Proof. intros w i j o N. apply obj_nth. now apply put_other. Qed.

Lemma obj_app : forall w x i o, obj w i = Ok o -> obj (w ++ [x]) i = Ok o.
Proof.
  intros w x i o H. apply obj_ok in H. apply obj_ok. rewrite nth_error_app1; [exact H|].
  apply nth_error_Some. congruence.
Qed.

(** The step as an equation: what it needs and what it does. *)
Lemma step_inv : forall w c w', step w c = Ok w' ->
  match c with
  | NewField f => w' = w ++ [Some (fresh f)]
  | CloneField i => exists o, obj w i = Ok o /\ w' = w ++ [Some (fresh (o_field o))]
  | SetB0 i b => exists o a b', obj w i = Ok o /\ o_field o = Analytical a b' /\
       w' = put w i (Some (mkObj (Analytical a b) (o_vec o) (o_jac o) (o_mag o) (o_flux o)))
  | Eval i p => exists o, obj w i = Ok o /\ w' = put w i (Some (do_eval o p))
  | EvalDerivatives i p => exists o, obj w i = Ok o /\ w' = put w i (Some (do_derivatives o p))
  | EvalFluxDerivatives i p => exists o, obj w i = Ok o /\ has_flux (o_field o) = true /\ w' = put w i (Some (do_flux o p))
  | EvalFlux i p => exists o, obj w i = Ok o /\ has_flux (o_field o) = true /\ w' = w
  | DeleteField i => exists o, obj w i = Ok o /\ w' = put w i None
  end.
Proof.
  intros w c w' H. destruct c as [f|i|i b|i p|i p|i p|i p|i]; cbn [step] in H; [congruence|..];
    destruct (obj w i) as [o| |] eqn:E; cbn [obind] in H; try discriminate.
  - exists o. split; congruence.
  - unfold do_set in H. destruct (o_field o) as [a b'|g b'] eqn:F; cbn [obind] in H; [|discriminate].
    exists o, a, b'. repeat split; try assumption. congruence.
  - exists o. split; congruence.
  - exists o. split; congruence.
  - destruct (has_flux (o_field o)) eqn:F; [|discriminate]. exists o. repeat split; congruence.
  - destruct (has_flux (o_field o)) eqn:F; [|discriminate]. exists o. repeat split; congruence.
  - exists o. split; congruence.
Qed.

(** Objects a call is not made on stay as they are. *)
Lemma step_other : forall w c w' j, step w c = Ok w' -> callee c <> Some j -> j < length w ->
  nth_error w' j = nth_error w j.
Proof.
  intros w c w' j H N L. apply step_inv in H.
  destruct c as [f|i|i b|i p|i p|i p|i p|i]; cbn [callee] in N.
  - subst. now rewrite nth_error_app1.
  - destruct H as (o & _ & ->). now rewrite nth_error_app1.
  - destruct H as (o & a & b' & _ & _ & ->). apply put_other. congruence.
  - destruct H as (o & _ & ->). apply put_other. congruence.
  - destruct H as (o & _ & ->). apply put_other. congruence.
  - destruct H as (o & _ & _ & ->). apply put_other. congruence.
  - destruct H as (o & _ & _ & ->). reflexivity.
  - destruct H as (o & _ & ->). apply put_other. congruence.
Qed.

Lemma step_length : forall w c w', step w c = Ok w' -> length w' = makes c + length w.
Proof.
  intros w c w' H. apply step_inv in H.
  destruct c as [f|i|i b|i p|i p|i p|i p|i]; cbn [makes].
  - subst. rewrite app_length. cbn. lia.
  - destruct H as (o & _ & ->). rewrite app_length. cbn. lia.
  - destruct H as (o & a & b' & _ & _ & ->). now rewrite put_length.
  - destruct H as (o & _ & ->). now rewrite put_length.
  - destruct H as (o & _ & ->). now rewrite put_length.
  - destruct H as (o & _ & _ & ->). now rewrite put_length.
  - destruct H as (o & _ & _ & ->). reflexivity.
  - destruct H as (o & _ & ->). now rewrite put_length.
Qed.

Lemma run_app : forall a b w, run w (a ++ b) = obind (run w a) (fun w' => run w' b).
Proof.
  induction a as [|c a IH]; intros b w; cbn [run app]; [reflexivity|].
  destruct (step w c); [apply IH|apply IH|reflexivity].
Qed.

Lemma run_not_throw : forall cs w, run w cs <> Throw.
Proof.
  induction cs as [|c cs IH]; intro w; cbn [run]; [discriminate|].
  destruct (step w c); [apply IH|apply IH|discriminate].
Qed.

Lemma run_cons : forall c cs w w', run w (c :: cs) = Ok w' ->
  (exists w1, step w c = Ok w1 /\ run w1 cs = Ok w') \/ (step w c = Throw /\ run w cs = Ok w').
Proof.
  intros c cs w w' H. cbn [run] in H. destruct (step w c) as [w1| |]; [left; eauto|right; auto|discriminate].
Qed.

Lemma step_throw_makes : forall w c, step w c = Throw -> makes c = 0.
Proof.
  intros w c H. destruct c as [f|i|i b|i p|i p|i p|i p|i]; try reflexivity; cbn [step] in H; [discriminate H|].
  unfold obj in H. destruct (nth_error w i) as [[o|]|]; cbn [obind] in H; discriminate H.
Qed.

Lemma run_length : forall cs w w', run w cs = Ok w' -> length w' = made cs + length w.
Proof.
  induction cs as [|c cs IH]; intros w w' H; [cbn in *; congruence|].
  change (made (c :: cs)) with (makes c + made cs).
  apply run_cons in H. destruct H as [(w1 & S1 & H)|(S1 & H)]; apply IH in H; rewrite H.
  - apply step_length in S1. lia.
  - apply step_throw_makes in S1. lia.
Qed.

Lemma run_other : forall cs w w' j, run w cs = Ok w' -> (forall c, In c cs -> callee c <> Some j) -> j < length w ->
  nth_error w' j = nth_error w j.
Proof.
  induction cs as [|c cs IH]; intros w w' j H N L; [cbn in H; congruence|].
  apply run_cons in H. destruct H as [(w1 & S1 & H)|(S1 & H)].
  - rewrite (IH _ _ j H).
    + apply (step_other _ _ _ _ S1); [apply N; now left|exact L].
    + intros c' I'. apply N. now right.
    + apply step_length in S1. lia.
  - apply (IH _ _ j H); [intros c' I'; apply N; now right|exact L].
Qed.

Lemma obj_lt : forall w i o, obj w i = Ok o -> i < length w.
Proof. intros w i o H. apply obj_ok in H. apply nth_error_Some. congruence. Qed.

(** What a call does to an object it does not delete: the class of field stays, and a piece of
    storage stays unless the call writes it. *)
Definition numeric_eq (f f' : field) : Prop := is_numeric f <-> is_numeric f'.

Lemma step_obj : forall w c w' i o, step w c = Ok w' -> obj w i = Ok o -> c <> DeleteField i ->
  exists o', obj w' i = Ok o' /\ numeric_eq (o_field o) (o_field o') /\
    ((forall p, ~ evaluates (o_field o) i p c) -> o_vec o' = o_vec o) /\
    ((forall p, c <> EvalDerivatives i p) -> o_jac o' = o_jac o /\ o_mag o' = o_mag o) /\
    ((forall p, c <> EvalFluxDerivatives i p) -> o_flux o' = o_flux o) /\
    ((forall b, c <> SetB0 i b) -> o_field o' = o_field o).
Proof.
  intros w c w' i o H O N.
  destruct (callee c) as [k|] eqn:C.
  all: try (destruct (Nat.eq_dec k i) as [->|K]).
  all: try (exists o; split;
    [ rewrite (obj_nth w' w); [exact O|apply (step_other _ _ _ _ H); [congruence|exact (obj_lt _ _ _ O)]]
    | unfold numeric_eq; tauto ]).
  apply step_inv in H.
  destruct c as [f|k|k b|k p|k p|k p|k p|k]; cbn [callee] in C; try discriminate; injection C as ->.
  - destruct H as (o' & O' & ->). exists o. split; [exact (obj_app _ _ _ _ O)|]. unfold numeric_eq; tauto.
  - destruct H as (o' & a & b' & O' & F & ->). rewrite O in O'. injection O' as <-.
    eexists. split; [exact (obj_put _ _ _ _ O)|]. cbn [o_field o_vec o_jac o_mag o_flux].
    split; [|split; [|split; [|split]]]; try tauto.
    + unfold numeric_eq, is_numeric. rewrite F. split; intros (g & x & E); discriminate E.
    + intro X. exfalso. exact (X b eq_refl).
  - destruct H as (o' & O' & ->). rewrite O in O'. injection O' as <-.
    eexists. split; [exact (obj_put _ _ _ _ O)|]. unfold do_eval. cbn [o_field o_vec o_jac o_mag o_flux].
    split; [unfold numeric_eq; tauto|]. split; [|tauto]. intro X. exfalso. apply (X p). now left.
  - destruct H as (o' & O' & ->). rewrite O in O'. injection O' as <-.
    eexists. split; [exact (obj_put _ _ _ _ O)|]. unfold do_derivatives. cbn [o_field o_vec o_jac o_mag o_flux].
    split; [unfold numeric_eq; tauto|]. split; [|split; [|tauto]].
    + intro X. destruct (o_field o) as [a b|g b] eqn:F; [reflexivity|]. exfalso. apply (X p). right. split; [reflexivity|].
      exists g, b. reflexivity.
    + intro X. exfalso. exact (X p eq_refl).
  - destruct H as (o' & O' & FL & ->). rewrite O in O'. injection O' as <-.
    eexists. split; [exact (obj_put _ _ _ _ O)|]. unfold do_flux. cbn [o_field o_vec o_jac o_mag o_flux].
    split; [unfold numeric_eq; tauto|]. split; [tauto|]. split; [tauto|]. split; [|tauto].
    intro X. exfalso. exact (X p eq_refl).
  - destruct H as (o' & O' & FL & ->). exists o. split; [exact O|]. unfold numeric_eq; tauto.
  - congruence.
Qed.

Lemma numeric_evaluates : forall f f' i p c, numeric_eq f f' -> evaluates f' i p c -> evaluates f i p c.
Proof. intros f f' i p c N [E|(E & X)]; [now left|right; split; [exact E|now apply N]]. Qed.

(** The same over several calls. *)
Lemma run_obj : forall cs w w' i o, run w cs = Ok w' -> obj w i = Ok o -> ~ In (DeleteField i) cs ->
  exists o', obj w' i = Ok o' /\ numeric_eq (o_field o) (o_field o') /\
    ((forall c p, In c cs -> ~ evaluates (o_field o) i p c) -> o_vec o' = o_vec o) /\
    ((forall p, ~ In (EvalDerivatives i p) cs) -> o_jac o' = o_jac o /\ o_mag o' = o_mag o) /\
    ((forall p, ~ In (EvalFluxDerivatives i p) cs) -> o_flux o' = o_flux o) /\
    ((forall b, ~ In (SetB0 i b) cs) -> o_field o' = o_field o).
Proof.
  induction cs as [|c cs IH]; intros w w' i o H O N.
  - cbn in H. injection H as <-. exists o. split; [exact O|]. unfold numeric_eq. tauto.
  - apply run_cons in H. destruct H as [(w1 & S1 & H)|(S1 & H)].
    + destruct (step_obj _ _ _ _ _ S1 O) as (o1 & O1 & N1 & V1 & J1 & F1 & G1);
        [intro E; apply N; now left|].
      destruct (IH _ _ _ _ H O1) as (o2 & O2 & N2 & V2 & J2 & F2 & G2); [intro E; apply N; now right|].
      exists o2. split; [exact O2|]. split; [unfold numeric_eq in *; tauto|]. split; [|split; [|split]].
      * intro X. rewrite V2; [apply V1|].
        -- intros p E. apply (X c p); [now left|exact E].
        -- intros c' p I' E. apply (X c' p); [now right|]. exact (numeric_evaluates _ _ _ _ _ N1 E).
      * intro X. destruct J2 as (A & B); [intros p I'; apply (X p); now right|].
        destruct J1 as (A' & B'); [intros p E; apply (X p); now left|]. split; congruence.
      * intro X. rewrite F2; [apply F1|]; intros p E; apply (X p); [now left|now right].
      * intro X. rewrite G2; [apply G1|]; intros p E; apply (X p); [now left|now right].
    + destruct (IH _ _ _ _ H O) as (o2 & O2 & N2 & V2 & J2 & F2 & G2); [intro E; apply N; now right|].
      exists o2. split; [exact O2|]. split; [exact N2|]. split; [|split; [|split]].
      * intro X. apply V2. intros c' p I'. apply X. now right.
      * intro X. apply J2. intros p I'. apply (X p). now right.
      * intro X. apply F2. intros p I'. apply (X p). now right.
      * intro X. apply G2. intros p I'. apply (X p). now right.
Qed.

(** Runs split at a call. *)
Lemma run_split : forall h1 c h2 w w1 w', run w h1 = Ok w1 -> run w (h1 ++ c :: h2) = Ok w' ->
  run w1 (c :: h2) = Ok w'.
Proof. intros h1 c h2 w w1 w' H1 H. rewrite run_app, H1 in H. exact H. Qed.

Lemma array_last : forall w h1 c h2 w1 w' i p o,
  run w h1 = Ok w1 -> obj w1 i = Ok o -> evaluates (o_field o) i p c ->
  run w (h1 ++ c :: h2) = Ok w' ->
  (forall c' q, In c' h2 -> ~ evaluates (o_field o) i q c') -> ~ In (DeleteField i) h2 ->
  read_vec w' i = Ok (gB (fun_of (o_field o)) p).
Proof.
  intros w h1 c h2 w1 w' i p o H1 O E H L N.
  apply (run_split _ _ _ _ _ _ H1) in H. apply run_cons in H.
  assert (S1 : exists w2 o2, step w1 c = Ok w2 /\ obj w2 i = Ok o2 /\ o_field o2 = o_field o /\
                 o_vec o2 = Some (gB (fun_of (o_field o)) p)).
  { destruct E as [->|(-> & (g & b & F))].
    - cbn [step]. rewrite O. cbn [obind]. eexists _, _. split; [reflexivity|]. split; [exact (obj_put _ _ _ _ O)|].
      split; reflexivity.
    - cbn [step]. rewrite O. cbn [obind]. eexists _, _. split; [reflexivity|]. split; [exact (obj_put _ _ _ _ O)|].
      unfold do_derivatives. cbn [o_field o_vec]. rewrite F. split; reflexivity. }
  destruct S1 as (w2 & o2 & S2 & O2 & F2 & V2).
  destruct H as [(w3 & S3 & H)|(S3 & _)]; [|congruence]. rewrite S2 in S3. injection S3 as <-.
  destruct (run_obj _ _ _ _ _ H O2 N) as (o3 & O3 & _ & V3 & _).
  unfold read_vec. rewrite O3. cbn [obind]. rewrite V3, V2; [reflexivity|]. rewrite F2. exact L.
Qed.

Lemma structure_last : forall w h1 h2 w1 w' i p o,
  run w h1 = Ok w1 -> obj w1 i = Ok o ->
  run w (h1 ++ EvalDerivatives i p :: h2) = Ok w' ->
  (forall q, ~ In (EvalDerivatives i q) h2) -> ~ In (DeleteField i) h2 ->
  read_mag w' i = Ok (gD (fun_of (o_field o)) p) /\ read_jac w' i = Ok (gJ (fun_of (o_field o)) p).
Proof.
  intros w h1 h2 w1 w' i p o H1 O H L N.
  apply (run_split _ _ _ _ _ _ H1) in H. cbn [run step] in H. rewrite O in H. cbn [obind] in H.
  destruct (run_obj _ _ _ _ _ H (obj_put _ _ _ _ O) N) as (o3 & O3 & _ & _ & J3 & _).
  destruct (J3 L) as (A & B). unfold read_mag, read_jac. rewrite O3. cbn [obind]. rewrite A, B.
  unfold do_derivatives. cbn [o_mag o_jac]. split; reflexivity.
Qed.

Lemma flux_last : forall w h1 h2 w1 w' i p o,
  run w h1 = Ok w1 -> obj w1 i = Ok o -> has_flux (o_field o) = true ->
  run w (h1 ++ EvalFluxDerivatives i p :: h2) = Ok w' ->
  (forall q, ~ In (EvalFluxDerivatives i q) h2) -> ~ In (DeleteField i) h2 ->
  read_flux w' i = Ok (gF (fun_of (o_field o)) p).
Proof.
  intros w h1 h2 w1 w' i p o H1 O FL H L N.
  apply (run_split _ _ _ _ _ _ H1) in H. cbn [run step] in H. rewrite O in H. cbn [obind] in H. rewrite FL in H.
  destruct (run_obj _ _ _ _ _ H (obj_put _ _ _ _ O) N) as (o3 & O3 & _ & _ & _ & F3 & _).
  unfold read_flux. rewrite O3. cbn [obind]. rewrite (F3 L). reflexivity.
Qed.

Lemma step_throw : forall w c, step w c = Throw <->
  exists i o, callee c = Some i /\ obj w i = Ok o /\
    ((exists p, c = EvalFlux i p \/ c = EvalFluxDerivatives i p) /\ has_flux (o_field o) = false \/
     (exists b, c = SetB0 i b) /\ is_numeric (o_field o)).
Proof.
  intros w c. split.
  - intro H. destruct c as [f|i|i b|i p|i p|i p|i p|i]; cbn [step] in H; [discriminate H|..];
      unfold obj in H; destruct (nth_error w i) as [[o|]|] eqn:E; cbn [obind] in H; try discriminate H;
      exists i, o; (split; [reflexivity|]); (split; [now apply obj_ok|]).
    + right. split; [exists b; reflexivity|]. unfold do_set in H. destruct (o_field o) as [a b'|g b'] eqn:F; [discriminate H|].
      exists g, b'. reflexivity.
    + left. destruct (has_flux (o_field o)); [discriminate H|]. split; [|reflexivity]. exists p. now right.
    + left. destruct (has_flux (o_field o)); [discriminate H|]. split; [|reflexivity]. exists p. now left.
  - intros (i & o & C & O & [((p & [-> | ->]) & F)|((b & ->) & (g & b' & F))]); cbn [step]; rewrite O; cbn [obind].
    + now rewrite F.
    + now rewrite F.
    + unfold do_set. rewrite F. reflexivity.
Qed.

(** Deleted objects stay deleted. *)
Lemma run_dead : forall cs w w' i, run w cs = Ok w' -> nth_error w i = Some None ->
  nth_error w' i = Some None /\ forall c, In c cs -> callee c <> Some i.
Proof.
  induction cs as [|c cs IH]; intros w w' i H D.
  - cbn in H. injection H as <-. split; [exact D|]. intros c [].
  - assert (C : callee c <> Some i).
    { intro C. cbn [run] in H. destruct c as [f|k|k b|k p|k p|k p|k p|k]; cbn [callee] in C; try discriminate C;
        injection C as ->; cbn [step] in H; unfold obj in H; rewrite D in H; cbn [obind] in H; discriminate H. }
    apply run_cons in H. destruct H as [(w1 & S1 & H)|(S1 & H)].
    + destruct (IH _ _ i H) as (A & B).
      * rewrite (step_other _ _ _ _ S1 C); [exact D|]. apply nth_error_Some. congruence.
      * split; [exact A|]. intros c' [<-|I']; [exact C|exact (B _ I')].
    + destruct (IH _ _ i H D) as (A & B). split; [exact A|]. intros c' [<-|I']; [exact C|exact (B _ I')].
Qed.

Lemma deleted : forall w h1 h2 w' i, run w (h1 ++ DeleteField i :: h2) = Ok w' ->
  obj w' i = UB /\ read_vec w' i = UB /\ read_mag w' i = UB /\ read_jac w' i = UB /\ read_flux w' i = UB /\
  forall c, In c h2 -> callee c <> Some i.
Proof.
  intros w h1 h2 w' i H. rewrite run_app in H. destruct (run w h1) as [w1| |]; cbn [obind] in H; try discriminate H.
  cbn [run step] in H. destruct (obj w1 i) as [o| |] eqn:O; cbn [obind] in H; try discriminate H.
  - apply obj_ok in O. destruct (run_dead _ _ _ i H (put_same _ _ _ _ O)) as (A & B).
    assert (U : obj w' i = UB) by (unfold obj; now rewrite A).
    unfold read_vec, read_mag, read_jac, read_flux. rewrite U. cbn [obind]. repeat split; assumption || exact B.
  - unfold obj in O. destruct (nth_error w1 i) as [[o|]|]; discriminate O.
Qed.

(** Which programs are defined. *)
Lemma step_defined : forall w c, step w c <> UB <->
  forall i, callee c = Some i -> exists o, nth_error w i = Some (Some o).
Proof.
  intros w c. split.
  - intros H i C. destruct (nth_error w i) as [[o|]|] eqn:E; [exists o; reflexivity|exfalso|exfalso]; apply H;
      destruct c as [f|k|k b|k p|k p|k p|k p|k]; cbn [callee] in C; try discriminate C; injection C as ->;
      cbn [step]; unfold obj; rewrite E; reflexivity.
  - intro H. destruct c as [f|i|i b|i p|i p|i p|i p|i]; cbn [step]; [discriminate|..];
      destruct (H i eq_refl) as (o & E); apply obj_ok in E; rewrite E; cbn [obind]; try discriminate.
    + unfold do_set. destruct (o_field o); cbn [obind]; discriminate.
    + destruct (has_flux (o_field o)); discriminate.
    + destruct (has_flux (o_field o)); discriminate.
Qed.

Lemma made_app : forall a b, made (a ++ b) = made a + made b.
Proof.
  intros a b. unfold made. induction a as [|x a IH]; [reflexivity|].
  cbn [app fold_right]. rewrite IH. lia.
Qed.

(** In a world where [pre] has been run from nothing: which objects are there. *)
Lemma live_after : forall pre w i, run [] pre = Ok w ->
  (exists o, nth_error w i = Some (Some o)) <-> i < made pre /\ ~ In (DeleteField i) pre.
Proof.
  intros pre. induction pre as [|c pre IH] using rev_ind; intros w i H.
  - cbn in H. injection H as <-. split; [intros (o & E); destruct i; discriminate E|]. cbn. lia.
  - assert (M : made (pre ++ [c]) = made pre + makes c).
    { rewrite made_app. unfold made at 2. cbn [fold_right]. lia. }
    rewrite run_app in H. destruct (run [] pre) as [w1| |] eqn:R1; cbn [obind] in H; try discriminate H.
    specialize (IH w1 i eq_refl). pose proof (run_length _ _ _ R1) as L1. cbn [length] in L1.
    apply run_cons in H. cbn [run] in H.
    assert (IN : forall d, In d (pre ++ [c]) <-> In d pre \/ c = d).
    { intro d. rewrite in_app_iff. cbn [In]. tauto. }
    rewrite (IN (DeleteField i)), M.
    destruct H as [(w2 & S2 & E)|(S2 & E)]; injection E as <-.
    + destruct (lt_dec i (length w1)) as [Lt|Ge].
      * destruct (option_map (Nat.eqb i) (callee c)) as [[|]|] eqn:C.
        -- destruct (callee c) as [k|] eqn:CC; [|discriminate C]. cbn [option_map] in C. injection C as C. apply Nat.eqb_eq in C. subst k.
           assert (LV : exists o, nth_error w1 i = Some (Some o)).
           { apply (proj1 (step_defined w1 c)); [rewrite S2; discriminate|exact CC]. }
           destruct c as [f|k|k b|k p|k p|k p|k p|k]; cbn [callee] in CC; try discriminate CC; injection CC as ->.
           1-6: destruct LV as (o & LV); apply obj_ok in LV;
             (destruct (step_obj _ _ _ _ _ S2 LV) as (o' & O' & _); [discriminate|]);
             apply obj_ok in O'; apply obj_ok in LV; split; [intros _|intros _; exists o'; exact O'];
             destruct (proj1 IH (ex_intro _ _ LV)) as (A & B); split; [lia|intros [X|X]; [exact (B X)|discriminate X]].
           split.
           ++ intros (o & E). apply step_inv in S2. destruct S2 as (o1 & O1 & ->). apply obj_ok in O1.
              rewrite (put_same _ _ _ _ O1) in E. discriminate E.
           ++ intros (_ & B). exfalso. apply B. now right.
        -- assert (NC : callee c <> Some i).
           { destruct (callee c) as [k|]; [|discriminate]. cbn [option_map] in C. injection C as C. apply Nat.eqb_neq in C. congruence. }
           rewrite (step_other _ _ _ _ S2 NC Lt), IH.
           assert (ND : c <> DeleteField i) by (intros ->; now apply NC). split; intros (A & B); split; try lia; tauto.
        -- assert (NC : callee c <> Some i).
           { destruct (callee c) as [k|]; [discriminate C|discriminate]. }
           rewrite (step_other _ _ _ _ S2 NC Lt), IH.
           assert (ND : c <> DeleteField i) by (intros ->; now apply NC). split; intros (A & B); split; try lia; tauto.
      * pose proof (step_length _ _ _ S2) as L2.
        assert (ND : ~ In (DeleteField i) pre).
        { intro D. apply in_split in D. destruct D as (a & b & D).
          rewrite D, run_app in R1. destruct (run [] a) as [wa| |] eqn:Ra; cbn [obind] in R1; try discriminate R1.
          cbn [run] in R1. pose proof (run_length _ _ _ Ra) as La. cbn [length] in La.
          assert (i < made a).
          { destruct (proj1 (step_defined wa (DeleteField i))) with (i := i) as (o & E);
              [intro X; rewrite X in R1; discriminate R1|reflexivity|].
            assert (i < length wa) by (apply nth_error_Some; congruence). lia. }
          assert (made a <= made pre).
          { rewrite D, made_app. lia. }
          lia. }
        assert (NDc : c <> DeleteField i).
        { intros ->. destruct (proj1 (step_defined w1 (DeleteField i))) with (i := i) as (o & E);
            [rewrite S2; discriminate|reflexivity|]. assert (i < length w1) by (apply nth_error_Some; congruence). lia. }
        split.
        -- intros (o & E). assert (i < length w2) by (apply nth_error_Some; congruence). split; [lia|]. intros [X|X]; tauto.
        -- intros (A & _). apply step_inv in S2.
           destruct c as [f|k|k b|k p|k p|k p|k p|k]; cbn [makes] in *; try lia.
           ++ exists (fresh f). rewrite S2, nth_error_app2 by lia. replace (i - length w1) with 0 by lia. reflexivity.
           ++ destruct S2 as (o & _ & ->). exists (fresh (o_field o)). rewrite nth_error_app2 by lia.
              replace (i - length w1) with 0 by lia. reflexivity.
    + pose proof (step_throw_makes _ _ S2) as Z.
      assert (ND : c <> DeleteField i).
      { intros ->. cbn [step] in S2. unfold obj in S2. destruct (nth_error w1 i) as [[o|]|]; cbn [obind] in S2; discriminate S2. }
      rewrite IH. split; intros (A & B); split; try lia; tauto.
Qed.

Lemma run_defined : forall cs, run [] cs <> UB <-> on_live_objects cs.
Proof.
  intro cs. split.
  - intros H before c after i E C. subst cs. rewrite run_app in H.
    destruct (run [] before) as [w1| |] eqn:R1; cbn [obind] in H.
    + apply (live_after before w1 i R1). apply (proj1 (step_defined w1 c)); [|exact C].
      intro X. apply H. cbn [run]. now rewrite X.
    + exfalso. exact (run_not_throw _ _ R1).
    + congruence.
  - induction cs as [|c cs IH] using rev_ind; intro L; [discriminate|].
    rewrite run_app. destruct (run [] cs) as [w1| |] eqn:R1; cbn [obind]; [|discriminate|].
    + intro X. cbn [run] in X. assert (S1 : step w1 c = UB) by (destruct (step w1 c); congruence).
      revert S1. apply step_defined. intros i C. apply (live_after cs w1 i R1). exact (L cs c [] i eq_refl C).
    + exfalso. apply IH; [|reflexivity]. intros before c' after i E C. apply (L before c' (after ++ [c]) i); [|exact C].
      rewrite E, <- app_assoc. reflexivity.
Qed.
