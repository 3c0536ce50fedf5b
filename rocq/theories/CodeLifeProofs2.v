From Verif Require Import Base FieldOwnModel FieldOwnProofs CodeLifeModel CodeLifeSpec CodeLifeProofs.

Section Proofs.
Variable A : Type.
Variable xi : A.
Variable g : A -> A.
Implicit Types w : world A.

Lemma start_sound : sound (start : world A).
Proof. intros i k H. destruct i; discriminate H. Qed.

Lemma reach_sound : forall cs w rs, run xi g start cs = Ok (w, rs) -> sound w.
Proof. intros cs w rs H. exact (run_sound _ _ _ _ _ _ _ start_sound H). Qed.

Theorem family_members : forall cs0 w rs0 i p f w1 cs w2 rs l j,
  run xi g start cs0 = Ok (w, rs0) -> step xi g w (Load i p f true) = Ok (w1, RNothing) ->
  run xi g w1 cs = Ok (w2, rs) -> history (Members [i]) cs rs = Members l -> In j l ->
  step xi g w2 (Eval j) = Ok (w2, RValue [p; f]) /\
  (exists w', step xi g w2 (MinClone j) = Ok (w', RCode (length (w_codes w2)))) /\
  (exists w', step xi g w2 (ToMomentumSpace j) = Ok (w', RTable (length (w_tables w2)))) /\
  (exists w', step xi g w2 (Destroy j) = Ok (w', RNothing)) /\
  (exists w', step xi g w2 (Delete j) = Ok (w', RNothing)).
Proof.
  intros cs0 w rs0 i p f w1 cs w2 rs l j H0 H1 H2 HM IJ. pose proof (reach_sound _ _ _ H0) as SW.
  pose proof (fam_load _ _ _ _ _ _ _ _ _ SW H1) as FI.
  pose proof (fam_run _ _ _ _ _ _ _ _ _ _ _ _ (step_sound _ _ _ _ _ _ _ SW H1) FI H2) as FJ. rewrite HM in FJ.
  exact (members_use _ _ _ _ _ _ _ _ _ _ FJ IJ).
Qed.

Theorem family_gone : forall cs0 w rs0 i p f w1 cs w2 rs l j,
  run xi g start cs0 = Ok (w, rs0) -> step xi g w (Load i p f true) = Ok (w1, RNothing) ->
  run xi g w1 cs = Ok (w2, rs) -> history (Members [i]) cs rs = Gone l -> In j l ->
  step xi g w2 (Eval j) = UB /\ step xi g w2 (MinClone j) = UB /\ step xi g w2 (ToMomentumSpace j) = UB /\
  step xi g w2 (Destroy j) = UB /\ (exists w', step xi g w2 (Delete j) = Ok (w', RNothing)).
Proof.
  intros cs0 w rs0 i p f w1 cs w2 rs l j H0 H1 H2 HM IJ. pose proof (reach_sound _ _ _ H0) as SW.
  pose proof (fam_load _ _ _ _ _ _ _ _ _ SW H1) as FI.
  pose proof (fam_run _ _ _ _ _ _ _ _ _ _ _ _ (step_sound _ _ _ _ _ _ _ SW H1) FI H2) as FJ. rewrite HM in FJ.
  exact (gone_use _ _ _ _ _ _ _ _ _ _ FJ IJ).
Qed.

Lemma history_app : forall m cs1 rs1 cs2 rs2, length rs1 = length cs1 ->
  history m (cs1 ++ cs2) (rs1 ++ rs2) = @history A (history m cs1 rs1) cs2 rs2.
Proof.
  intros m cs1 rs1 cs2 rs2 L. unfold history. rewrite <- fold_left_app. f_equal.
  revert rs1 L. induction cs1 as [|c cs1 IH]; intros [|r rs1] L; try discriminate L; [reflexivity|].
  cbn [app combine]. f_equal. apply IH. now injection L.
Qed.

(** Once gone, always gone. *)
Lemma after_gone : forall c r l, exists l', after (Gone l) c (r : result A) = Gone l' /\ forall j, In j l' -> In j l.
Proof.
  intros c r l. destruct c as [|i p f known|i|i|i|i|i|j|j|j]; cbn [after members];
    try (exists l; split; [reflexivity|auto]; fail).
  - exists (without i l). split; [reflexivity|]. intros k IK. now apply without_in in IK.
  - destruct r; try (exists l; split; [reflexivity|auto]; fail). destruct (in_dec Nat.eq_dec i l); exists l; split; try reflexivity; auto.
  - destruct (in_dec Nat.eq_dec i l).
    + exists (without i l). split; [reflexivity|]. intros k IK. now apply without_in in IK.
    + exists l. split; [reflexivity|auto].
  - exists (without i l). split; [reflexivity|]. intros k IK. now apply without_in in IK.
Qed.

Theorem gone_forever : forall cs rs l, exists l', @history A (Gone l) cs rs = Gone l' /\ forall j, In j l' -> In j l.
Proof.
  induction cs as [|c cs IH]; intros rs l; [exists l; split; [reflexivity|auto]|].
  destruct rs as [|r rs]; [exists l; split; [reflexivity|auto]|].
  unfold history. cbn [combine fold_left fst snd]. destruct (after_gone c r l) as (l1 & -> & S1).
  destruct (IH rs l1) as (l2 & E & S2). exists l2. split; [exact E|]. intros j IJ. exact (S1 j (S2 j IJ)).
Qed.

Lemma two_first : forall (h : heap A) a b, rd (h ++ [Some a; Some b]) (length h) = Ok a.
Proof. intros h a b. apply rd_ok. rewrite nth_error_app2, Nat.sub_diag by lia. reflexivity. Qed.

Lemma two_second : forall (h : heap A) a b, rd (h ++ [Some a; Some b]) (S (length h)) = Ok b.
Proof. intros h a b. apply rd_ok. rewrite nth_error_app2 by lia. replace (S (length h) - length h) with 1 by lia. reflexivity. Qed.

(** What Destroy and delete do. *)
Theorem destroyed : forall w i w1, step xi g w (Destroy i) = Ok (w1, RNothing) ->
  step xi g w1 (Destroy i) = Ok (w1, RNothing) /\ step xi g w1 (Eval i) = UB /\ step xi g w1 (ToMomentumSpace i) = UB /\
  (exists w', step xi g w1 (Delete i) = Ok (w', RNothing)) /\
  (forall p f, exists w', step xi g w1 (Load i p f true) = Ok (w', RNothing) /\ step xi g w' (Eval i) = Ok (w', RValue [p; f])).
Proof.
  intros w i w1 H. apply step_inv in H. destruct H as (k & K & NI & _ & _ & -> & _).
  assert (G : nth_error (set (w_codes w) i (Some (mkCode (k_dims k) None None false (k_known k) INone))) i =
              Some (Some (mkCode (k_dims k) None None false (k_known k) INone))) by (exact (set_same _ _ _ _ _ K)).
  cbn [step]. unfold get_code. cbn [w_codes]. rewrite G. cbn [obind].
  split; [|split; [|split; [|split]]].
  - unfold destroy. cbn [k_f k_p fre_ptr obind k_interp k_dims k_known w_heap w_codes w_tables]. do 2 f_equal. f_equal.
    clear. revert i. generalize (Some (mkCode (k_dims k) None None false (k_known k) INone)). intros x.
    induction (w_codes w) as [|y l IH]; intros [|i]; cbn; try reflexivity. now rewrite IH.
  - reflexivity.
  - reflexivity.
  - eexists. reflexivity.
  - intros p f. eexists. unfold load. split; [reflexivity|]. cbn [w_codes w_heap w_tables].
    rewrite (set_same _ _ _ _ _ G). cbn [obind]. unfold eval. cbn [k_p k_f k_interp rd_ptr init_interp w_heap].
    rewrite two_first. cbn [obind]. rewrite two_second. reflexivity.
Qed.

Theorem destroyed_clone : forall w i w1, step xi g w (Destroy i) = Ok (w1, RNothing) ->
  (exists k, nth_error (w_codes w) i = Some (Some k) /\ k_dims k = true) -> step xi g w1 (MinClone i) = Ok (w1, RThrow).
Proof.
  intros w i w1 H (k' & K' & KD). apply step_inv in H. destruct H as (k & K & NI & _ & _ & -> & _).
  cbn [step]. unfold get_code. cbn [w_codes]. rewrite (set_same _ _ _ _ _ K). cbn [obind]. unfold min_clone. cbn [k_dims k_p].
  replace k with k' by congruence. rewrite KD. reflexivity.
Qed.

Theorem deleted_effect : forall w i w1 r, step xi g w (Delete i) = Ok (w1, r) ->
  w_heap w1 = w_heap w /\ w_tables w1 = w_tables w /\ (forall j, j <> i -> nth_error (w_codes w1) j = nth_error (w_codes w) j) /\
  (forall c, In c [MinClone i; Destroy i; Delete i; Eval i; ToMomentumSpace i] -> step xi g w1 c = UB).
Proof.
  intros w i w1 r H. apply step_inv in H. destruct H as (k & K & NI & -> & _). cbn [w_heap w_tables w_codes].
  split; [reflexivity|]. split; [reflexivity|]. split; [intros j N; now rewrite set_other by congruence|].
  assert (G : get_code (mkWorld (w_heap w) (set (w_codes w) i None) (w_tables w)) i = UB).
  { unfold get_code. cbn [w_codes]. now rewrite (set_same _ _ _ _ _ K). }
  intros c IC. cbn [In] in IC. destruct IC as [<-|[<-|[<-|[<-|[<-|[]]]]]]; cbn [step]; rewrite G; reflexivity.
Qed.

(** Without Destroy nothing is released. *)
Theorem never_released : forall cs w w' rs q v, run xi g w cs = Ok (w', rs) -> (forall i, ~ In (Destroy i) cs) ->
  nth_error (w_heap w) q = Some (Some v) -> nth_error (w_heap w') q = Some (Some v).
Proof. intros cs w w' rs q v H N Q. exact (run_cell_kept _ _ _ _ _ _ _ _ _ H Q N). Qed.

(** Tables. *)
Theorem table_values : forall w i w1 t p f cs w2 rs, 
  step xi g w (Eval i) = Ok (w, RValue [p; f]) -> step xi g w (ToMomentumSpace i) = Ok (w1, RTable t) ->
  run xi g w1 cs = Ok (w2, rs) -> ~ In (TDelete t) cs -> step xi g w2 (TEval t) = Ok (w2, RValue [p; xi; g f]).
Proof.
  intros w i w1 t p f cs w2 rs HE HT HR ND. apply step_inv in HE.
  destruct HE as (k & P & F & vp & vf & K & KP & KF & _ & VP & VF & _ & ER). injection ER as <- <-.
  apply step_inv in HT. destruct HT as (k' & P' & F' & vp' & vf' & K' & KP' & KF' & VP' & VF' & -> & ET). injection ET as ->.
  assert (k' = k) by congruence. subst k'. assert (P' = P) by congruence. subst P'. assert (F' = F) by congruence. subst F'.
  assert (vp' = p) by congruence. assert (vf' = f) by congruence. subst vp' vf'.
  set (T := mkTable P (length (w_heap w)) (S (length (w_heap w))) [p; xi; g f]) in *.
  assert (G : nth_error (w_tables w2) (length (w_tables w)) = Some (Some T)).
  { apply (run_table _ _ _ _ _ _ _ _ _ HR); [|exact ND]. cbn [w_tables]. rewrite nth_error_app2, Nat.sub_diag by lia. reflexivity. }
  cbn [step]. unfold get_table. rewrite G. reflexivity.
Qed.

Lemma rd_ub : forall (h : heap A) q, nth_error h q = Some None -> rd h q = UB.
Proof. intros h q E. unfold rd. now rewrite E. Qed.

(** A table of a family: which arrays it has. *)
Lemma table_of_family : forall cs0 w rs0 i p f w1 cs1 w2 rs1 l j w3 t cs2 w4 rs2,
  run xi g start cs0 = Ok (w, rs0) -> step xi g w (Load i p f true) = Ok (w1, RNothing) ->
  run xi g w1 cs1 = Ok (w2, rs1) -> history (Members [i]) cs1 rs1 = Members l -> In j l ->
  step xi g w2 (ToMomentumSpace j) = Ok (w3, RTable t) -> run xi g w3 cs2 = Ok (w4, rs2) -> ~ In (TDelete t) cs2 ->
  exists X F, nth_error (w_tables w4) t = Some (Some (mkTable (length (w_heap w)) X F [p; xi; g f])) /\
    nth_error (w_heap w4) X = Some (Some xi) /\ nth_error (w_heap w4) F = Some (Some (g f)) /\
    fam_inv A w4 (history (Members l) cs2 rs2) (length (w_heap w)) (S (length (w_heap w))) p f.
Proof.
  intros cs0 w rs0 i p f w1 cs1 w2 rs1 l j w3 t cs2 w4 rs2 H0 H1 H2 HM IJ H3 H4 ND.
  pose proof (reach_sound _ _ _ H0) as SW. pose proof (fam_load _ _ _ _ _ _ _ _ _ SW H1) as FI.
  pose proof (step_sound _ _ _ _ _ _ _ SW H1) as SW1.
  pose proof (fam_run _ _ _ _ _ _ _ _ _ _ _ _ SW1 FI H2) as FJ. rewrite HM in FJ.
  pose proof (run_sound _ _ _ _ _ _ _ SW1 H2) as SW2. pose proof (step_sound _ _ _ _ _ _ _ SW2 H3) as SW3.
  pose proof (fam_step _ _ _ _ _ _ _ _ _ _ _ _ SW2 FJ H3) as FK. cbn [after] in FK.
  pose proof (fam_run _ _ _ _ _ _ _ _ _ _ _ _ SW3 FK H4) as FL.
  set (P := length (w_heap w)) in *.
  destruct FJ as (NPF & LP & LF & MEM & HAS & CP & CF). cbn [members] in MEM. apply MEM in IJ.
  apply step_inv in H3. destruct H3 as (k & P' & F' & vp & vf & K & KP & KF & VP & VF & -> & ET). injection ET as ->.
  assert (k = member_code P (S P)) by congruence. subst k. cbn [member_code k_p k_f] in KP, KF. injection KP as <-. injection KF as <-.
  assert (vp = p) by congruence. assert (vf = f) by congruence. subst vp vf.
  exists (length (w_heap w2)), (S (length (w_heap w2))).
  assert (FREE : forall q, length (w_heap w2) <= q -> forall m k, nth_error (w_codes w2) m = Some (Some k) -> ~ has_array k q).
  { intros q L m k KK HA. destruct (SW2 m k KK) as (A1 & A2 & _). destruct HA as [E|E]; [specialize (A1 _ E)|specialize (A2 _ E)]; lia. }
  split; [|split; [|split; [|exact FL]]].
  - apply (run_table _ _ _ _ _ _ _ _ _ H4); [|exact ND]. cbn [w_tables]. rewrite nth_error_app2, Nat.sub_diag by lia. reflexivity.
  - apply (run_cell_free _ _ _ _ _ _ _ _ _ SW3 H4); [|cbn [w_codes]; apply FREE; lia].
    cbn [w_heap]. rewrite nth_error_app2, Nat.sub_diag by lia. reflexivity.
  - apply (run_cell_free _ _ _ _ _ _ _ _ _ SW3 H4); [|cbn [w_codes]; apply FREE; lia].
    cbn [w_heap]. rewrite nth_error_app2 by lia. replace (S (length (w_heap w2)) - length (w_heap w2)) with 1 by lia. reflexivity.
Qed.

Theorem table_clone : forall cs0 w rs0 i p f w1 cs1 w2 rs1 l j w3 t cs2 w4 rs2,
  run xi g start cs0 = Ok (w, rs0) -> step xi g w (Load i p f true) = Ok (w1, RNothing) ->
  run xi g w1 cs1 = Ok (w2, rs1) -> history (Members [i]) cs1 rs1 = Members l -> In j l ->
  step xi g w2 (ToMomentumSpace j) = Ok (w3, RTable t) -> run xi g w3 cs2 = Ok (w4, rs2) -> ~ In (TDelete t) cs2 ->
  match history (Members l) cs2 rs2 with
  | Members _ => exists w5, step xi g w4 (TMinClone t) = Ok (w5, RTable (length (w_tables w4))) /\
      step xi g w5 (TEval (length (w_tables w4))) = Ok (w5, RValue [p; xi; g f])
  | Gone _ => step xi g w4 (TMinClone t) = UB
  end.
Proof.
  intros cs0 w rs0 i p f w1 cs1 w2 rs1 l j w3 t cs2 w4 rs2 H0 H1 H2 HM IJ H3 H4 ND.
  destruct (table_of_family _ _ _ _ _ _ _ _ _ _ _ _ _ _ _ _ _ H0 H1 H2 HM IJ H3 H4 ND) as (X & F & T & VX & VF & FL).
  assert (G : get_table w4 t = Ok (mkTable (length (w_heap w)) X F [p; xi; g f])) by (now apply get_table_ok).
  apply rd_ok in VX. apply rd_ok in VF.
  destruct (history (Members l) cs2 rs2) as [l2|l2]; destruct FL as (_ & _ & _ & _ & _ & CP & _).
  - apply rd_ok in CP. cbn [step]. rewrite G. cbn [obind]. unfold t_min_clone. cbn [t_p t_xi t_f rd_all].
    rewrite CP. cbn [obind]. rewrite VX. cbn [obind]. rewrite VF. cbn [obind]. eexists. split; [reflexivity|].
    unfold get_table. cbn [w_tables]. rewrite nth_error_app2, Nat.sub_diag by lia. reflexivity.
  - cbn [step]. rewrite G. cbn [obind]. unfold t_min_clone. cbn [t_p t_xi t_f rd_all]. rewrite (rd_ub _ _ CP). reflexivity.
Qed.

(** Unknown methods. *)
Lemma unset_run : forall cs w w' rs i, (exists k, nth_error (w_codes w) i = Some (Some k) /\ k_interp k = IUnset) ->
  run xi g w cs = Ok (w', rs) -> (forall p f b, ~ In (Load i p f b) cs) ->
  exists k, nth_error (w_codes w') i = Some (Some k) /\ k_interp k = IUnset.
Proof.
  induction cs as [|c cs IH]; intros w w' rs i HK H NL.
  - cbn in H. injection H as <- <-. exact HK.
  - apply run_cons in H. destruct H as (w1 & r & rs' & S1 & H & ->).
    apply (IH _ _ _ i) in H; [exact H| |intros p f b IL; apply (NL p f b); now right].
    clear H IH. destruct HK as (k & K & KU). apply step_inv in S1. destruct c as [|i0 p f known|i0|i0|i0|i0|i0|j|j|j].
    + destruct S1 as (-> & _). exists k. split; [|exact KU]. cbn [w_codes]. rewrite nth_error_app1; [exact K|]. apply nth_error_Some. congruence.
    + destruct S1 as (k0 & K0 & -> & _). exists k. split; [|exact KU]. cbn [w_codes]. rewrite set_other; [exact K|].
      intros ->. apply (NL p f known). now left.
    + destruct S1 as (k0 & K0 & _ & [(-> & _)|(p & f & _ & _ & _ & _ & _ & -> & _)]); exists k; split; try assumption.
      cbn [w_codes]. rewrite nth_error_app1; [exact K|]. apply nth_error_Some. congruence.
    + destruct S1 as (k0 & K0 & NI & _ & _ & -> & _). exists k. split; [|exact KU]. cbn [w_codes]. rewrite set_other; [exact K|].
      intros ->. congruence.
    + destruct S1 as (k0 & K0 & NI & -> & _). exists k. split; [|exact KU]. cbn [w_codes]. rewrite set_other; [exact K|].
      intros ->. congruence.
    + destruct S1 as (k0 & p & f & vp & vf & _ & _ & _ & _ & _ & _ & -> & _). exists k. now split.
    + destruct S1 as (k0 & p & f & vp & vf & _ & _ & _ & _ & _ & -> & _). exists k. now split.
    + destruct S1 as (t & _ & -> & _). exists k. now split.
    + destruct S1 as (t & vs & _ & _ & -> & _). exists k. now split.
    + destruct S1 as (t & _ & ->). exists k. now split.
Qed.

Lemma unset_use : forall w i, (exists k, nth_error (w_codes w) i = Some (Some k) /\ k_interp k = IUnset) ->
  step xi g w (Eval i) = UB /\ step xi g w (Destroy i) = UB /\ step xi g w (Delete i) = UB.
Proof.
  intros w i (k & K & KU). apply get_code_ok in K. cbn [step]. rewrite K. cbn [obind]. unfold eval, destroy, delete. rewrite KU.
  split; [|split; [|reflexivity]].
  - unfold rd_ptr, rd. destruct (k_p k) as [p|]; [|reflexivity]. destruct (nth_error (w_heap w) p) as [[v|]|]; reflexivity.
  - unfold fre_ptr, fre, rd. destruct (k_f k) as [f|].
    + destruct (nth_error (w_heap w) f) as [[v|]|]; cbn [obind]; try reflexivity. destruct (k_p k) as [p|]; [|reflexivity].
      destruct (nth_error (upd (w_heap w) f None) p) as [[v'|]|]; reflexivity.
    + cbn [obind]. destruct (k_p k) as [p|]; [|reflexivity]. destruct (nth_error (w_heap w) p) as [[v'|]|]; reflexivity.
Qed.

Theorem unknown_method : forall w i p f w1 r, step xi g w (Load i p f false) = Ok (w1, r) ->
  r = RThrow /\
  forall cs w2 rs, run xi g w1 cs = Ok (w2, rs) -> (forall p' f' b, ~ In (Load i p' f' b) cs) ->
    step xi g w2 (Eval i) = UB /\ step xi g w2 (Destroy i) = UB /\ step xi g w2 (Delete i) = UB.
Proof.
  intros w i p f w1 r H. apply step_inv in H. destruct H as (k & K & -> & ->). split; [reflexivity|].
  intros cs w2 rs H NL. apply unset_use. apply (unset_run _ _ _ _ _) with (2 := H); [|exact NL].
  cbn [w_codes]. eexists. split; [exact (set_same _ _ _ _ _ K)|reflexivity].
Qed.

(** New objects. *)
Theorem new_object : forall w w1 r, step xi g w New = Ok (w1, r) ->
  exists i, r = RCode i /\ (forall k, nth_error (w_codes w) i <> Some k) /\
    step xi g w1 (Eval i) = UB /\ step xi g w1 (MinClone i) = UB /\ step xi g w1 (ToMomentumSpace i) = UB /\
    step xi g w1 (Destroy i) <> UB /\ step xi g w1 (Delete i) <> UB.
Proof.
  intros w w1 r H. apply step_inv in H. destruct H as (-> & ->). exists (length (w_codes w)). split; [reflexivity|].
  split. { intros k E. assert (L : length (w_codes w) < length (w_codes w)) by (apply nth_error_Some; congruence). lia. }
  assert (G : get_code (mkWorld (w_heap w) (w_codes w ++ [Some new_code]) (w_tables w)) (length (w_codes w)) = Ok new_code).
  { apply get_code_ok. cbn [w_codes]. rewrite nth_error_app2, Nat.sub_diag by lia. reflexivity. }
  cbn [step]. rewrite G. cbn [obind]. repeat split; try reflexivity; discriminate.
Qed.

(** Values do not depend on other objects: nothing that is called with other objects changes what
    an evaluation gives, as long as it stays defined. *)
Theorem eval_stable : forall cs w w' rs i p f r,
  step xi g w (Eval i) = Ok (w, RValue [p; f]) -> run xi g w cs = Ok (w', rs) ->
  (forall p' f' b, ~ In (Load i p' f' b) cs) ->
  step xi g w' (Eval i) = Ok (w', r) -> r = RValue [p; f].
Proof.
  intros cs w w' rs i p f r HE HR NL HE'.
  assert (INV : forall cs w w' rs, (exists k P F, nth_error (w_codes w) i = Some (Some k) /\ k_p k = Some P /\ k_f k = Some F /\
             nth_error (w_heap w) P = Some (Some p) /\ nth_error (w_heap w) F = Some (Some f)) ->
             run xi g w cs = Ok (w', rs) -> (forall p' f' b, ~ In (Load i p' f' b) cs) ->
             nth_error (w_codes w') i = Some None \/
             exists k, nth_error (w_codes w') i = Some (Some k) /\
               ((k_p k = None /\ k_f k = None) \/
                exists P F, k_p k = Some P /\ k_f k = Some F /\
                  (nth_error (w_heap w') P = Some (Some p) \/ nth_error (w_heap w') P = Some None) /\
                  (nth_error (w_heap w') F = Some (Some f) \/ nth_error (w_heap w') F = Some None))).
  { clear. intros cs. 
    assert (GEN : forall w w' rs, (nth_error (w_codes w) i = Some None \/
             exists k, nth_error (w_codes w) i = Some (Some k) /\
               ((k_p k = None /\ k_f k = None) \/
                exists P F, k_p k = Some P /\ k_f k = Some F /\
                  (nth_error (w_heap w) P = Some (Some p) \/ nth_error (w_heap w) P = Some None) /\
                  (nth_error (w_heap w) F = Some (Some f) \/ nth_error (w_heap w) F = Some None))) ->
             run xi g w cs = Ok (w', rs) -> (forall p' f' b, ~ In (Load i p' f' b) cs) ->
             nth_error (w_codes w') i = Some None \/
             exists k, nth_error (w_codes w') i = Some (Some k) /\
               ((k_p k = None /\ k_f k = None) \/
                exists P F, k_p k = Some P /\ k_f k = Some F /\
                  (nth_error (w_heap w') P = Some (Some p) \/ nth_error (w_heap w') P = Some None) /\
                  (nth_error (w_heap w') F = Some (Some f) \/ nth_error (w_heap w') F = Some None))).
    { induction cs as [|c cs IH]; intros w w' rs INV H NL.
      - cbn in H. injection H as <- <-. exact INV.
      - apply run_cons in H. destruct H as (w1 & r & rs' & S1 & H & ->).
        apply (IH w1 w' rs'); [|exact H|intros p' f' b IL; apply (NL p' f' b); now right]. clear H IH.
        assert (CELL : forall q v, (nth_error (w_heap w) q = Some (Some v) \/ nth_error (w_heap w) q = Some None) ->
                       nth_error (w_heap w1) q = Some (Some v) \/ nth_error (w_heap w1) q = Some None).
        { intros q v Q. assert (L : q < length (w_heap w)) by (apply nth_error_Some; destruct Q; congruence).
          destruct (step_cell _ _ _ _ _ _ _ _ S1 L) as [E|(E & _)]; [rewrite E; exact Q|now right]. }
        assert (SAME : nth_error (w_codes w1) i = nth_error (w_codes w) i \/ nth_error (w_codes w1) i = Some None \/
                       exists k, nth_error (w_codes w1) i = Some (Some k) /\ k_p k = None /\ k_f k = None).
        { assert (LI : i < length (w_codes w)) by (apply nth_error_Some; destruct INV as [E|(k & E & _)]; congruence).
          apply step_inv in S1. destruct c as [|i0 p0 f0 known|i0|i0|i0|i0|i0|j|j|j].
          + destruct S1 as (-> & _). left. cbn [w_codes]. now rewrite nth_error_app1.
          + destruct S1 as (k0 & K0 & -> & _). left. cbn [w_codes]. apply set_other. intros ->. apply (NL p0 f0 known). now left.
          + destruct S1 as (k0 & K0 & _ & [(-> & _)|(p1 & f1 & _ & _ & _ & _ & _ & -> & _)]); left; [reflexivity|].
            cbn [w_codes]. now rewrite nth_error_app1.
          + destruct S1 as (k0 & K0 & NI & _ & _ & -> & _). cbn [w_codes]. destruct (Nat.eq_dec i0 i) as [->|N].
            * right. right. eexists. split; [exact (set_same _ _ _ _ _ K0)|split; reflexivity].
            * left. now apply set_other.
          + destruct S1 as (k0 & K0 & NI & -> & _). cbn [w_codes]. destruct (Nat.eq_dec i0 i) as [->|N].
            * right. left. exact (set_same _ _ _ _ _ K0).
            * left. now apply set_other.
          + destruct S1 as (k0 & p1 & f1 & vp & vf & _ & _ & _ & _ & _ & _ & -> & _). now left.
          + destruct S1 as (k0 & p1 & f1 & vp & vf & _ & _ & _ & _ & _ & -> & _). now left.
          + destruct S1 as (t & _ & -> & _). now left.
          + destruct S1 as (t & vs & _ & _ & -> & _). now left.
          + destruct S1 as (t & _ & ->). now left. }
        destruct SAME as [E|[E|(k & E & KN)]]; [|now left|right; exists k; split; [exact E|now left]].
        destruct INV as [I'|(k & K & D)]; [left; congruence|]. right. exists k. split; [congruence|].
        destruct D as [D|(P & F & KP & KF & VP & VF)]; [now left|]. right. exists P, F. auto. }
    intros w w' rs (k & P & F & K & KP & KF & VP & VF) H NL. apply (GEN w w' rs); [|exact H|exact NL].
    right. exists k. split; [exact K|]. right. exists P, F. auto. }
  apply step_inv in HE. destruct HE as (k & P & F & vp & vf & K & KP & KF & _ & VP & VF & _ & ER). injection ER as <- <-.
  assert (HK : exists k P F, nth_error (w_codes w) i = Some (Some k) /\ k_p k = Some P /\ k_f k = Some F /\
             nth_error (w_heap w) P = Some (Some p) /\ nth_error (w_heap w) F = Some (Some f)) by (exists k, P, F; auto).
  specialize (INV cs w w' rs HK HR NL).
  apply step_inv in HE'. destruct HE' as (k' & P' & F' & vp' & vf' & K' & KP' & KF' & _ & VP' & VF' & _ & ->).
  destruct INV as [E|(k2 & K2 & [(E1 & E2)|(P2 & F2 & E1 & E2 & D1 & D2)])]; [congruence| |].
  - exfalso. assert (k2 = k') by congruence. subst k2. congruence.
  - assert (k2 = k') by congruence. subst k2. assert (P2 = P') by congruence. assert (F2 = F') by congruence. subst P2 F2.
    destruct D1 as [D1|D1]; [|congruence]. destruct D2 as [D2|D2]; [|congruence]. congruence.
Qed.

(** Deleted tables. *)
Lemma run_table_gone : forall cs w w' rs j, run xi g w cs = Ok (w', rs) -> nth_error (w_tables w) j = Some None ->
  nth_error (w_tables w') j = Some None.
Proof.
  induction cs as [|c cs IH]; intros w w' rs j H T.
  - cbn in H. injection H as <- <-. exact T.
  - apply run_cons in H. destruct H as (w1 & r & rs' & S1 & H & ->). apply (IH _ _ _ _ H).
    assert (L : j < length (w_tables w)) by (apply nth_error_Some; congruence).
    apply step_inv in S1. clear H IH. destruct c as [|i p f known|i|i|i|i|i|k|k|k].
    + destruct S1 as (-> & _). exact T.
    + destruct S1 as (k & _ & -> & _). exact T.
    + destruct S1 as (k & _ & _ & [(-> & _)|(p & f & _ & _ & _ & _ & _ & -> & _)]); exact T.
    + destruct S1 as (k & _ & _ & _ & _ & -> & _). exact T.
    + destruct S1 as (k & _ & _ & -> & _). exact T.
    + destruct S1 as (k & p & f & vp & vf & _ & _ & _ & _ & _ & _ & -> & _). exact T.
    + destruct S1 as (k & p & f & vp & vf & _ & _ & _ & _ & _ & -> & _). cbn [w_tables]. now rewrite nth_error_app1.
    + destruct S1 as (t' & _ & -> & _). exact T.
    + destruct S1 as (t' & vs & _ & _ & -> & _). cbn [w_tables]. now rewrite nth_error_app1.
    + destruct S1 as (t' & X & ->). cbn [w_tables]. rewrite set_other; [exact T|]. congruence.
Qed.

Theorem table_deleted : forall w t w1 r, step xi g w (TDelete t) = Ok (w1, r) ->
  w_heap w1 = w_heap w /\ w_codes w1 = w_codes w /\ (forall j, j <> t -> nth_error (w_tables w1) j = nth_error (w_tables w) j) /\
  (forall cs w2 rs, run xi g w1 cs = Ok (w2, rs) ->
     step xi g w2 (TEval t) = UB /\ step xi g w2 (TMinClone t) = UB /\ step xi g w2 (TDelete t) = UB).
Proof.
  intros w t w1 r H. apply step_inv in H. destruct H as (t' & X & ->). cbn [w_heap w_codes w_tables].
  split; [reflexivity|]. split; [reflexivity|]. split; [intros j N; now rewrite set_other by congruence|].
  intros cs w2 rs H. pose proof (run_table_gone _ _ _ _ t H (set_same _ _ _ _ _ X)) as G.
  cbn [step]. unfold get_table. rewrite G. repeat split; reflexivity.
Qed.

(** Witnesses. *)
Theorem clone_lives_on_false : ~ (forall cs w rs i w1 j,
  run xi g start cs = Ok (w, rs) -> i <> j -> step xi g w (Eval j) <> UB -> step xi g w (Destroy i) = Ok (w1, RNothing) ->
  step xi g w1 (Eval j) <> UB).
Proof.
  intros H.
  refine (H [New; Load 0 xi xi true; MinClone 0] _ _ 0 _ 1 eq_refl _ _ eq_refl eq_refl); discriminate.
Qed.

Theorem delete_frees_false : ~ (forall cs w rs i w1,
  run xi g start cs = Ok (w, rs) -> (forall j, j <> i -> nth_error (w_codes w) j = None) ->
  step xi g w (Delete i) = Ok (w1, RNothing) -> forall q v, nth_error (w_heap w1) q <> Some (Some v)).
Proof.
  intros H.
  refine (H [New; Load 0 xi xi true] _ _ 0 _ eq_refl _ eq_refl 0 xi eq_refl).
  intros [|[|j]] N; [congruence|reflexivity|reflexivity].
Qed.
End Proofs.
