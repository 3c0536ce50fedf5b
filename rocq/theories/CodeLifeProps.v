(** C102: CODE distribution functions over their life. *)
From Verif Require Import Base FieldOwnModel CodeLifeModel CodeLifeSpec CodeLifeProofs2.

(** [p], [f] are the contents of the file that object [i] loaded.  As long as none of the objects
    that have these data is destroyed, all of them can be used and give values of these data. *)
Theorem C102_family : forall (A : Type) (xi : A) (g : A -> A) cs0 w rs0 i p f w1 cs w2 rs l j,
  run xi g start cs0 = Ok (w, rs0) -> step xi g w (Load i p f true) = Ok (w1, RNothing) ->
  run xi g w1 cs = Ok (w2, rs) -> history (Members [i]) cs rs = Members l -> In j l ->
  step xi g w2 (Eval j) = Ok (w2, RValue [p; f]) /\
  (exists w', step xi g w2 (MinClone j) = Ok (w', RCode (length (w_codes w2)))) /\
  (exists w', step xi g w2 (ToMomentumSpace j) = Ok (w', RTable (length (w_tables w2)))) /\
  (exists w', step xi g w2 (Destroy j) = Ok (w', RNothing)) /\
  (exists w', step xi g w2 (Delete j) = Ok (w', RNothing)).
Proof. exact family_members. Qed.
Print Assumptions C102_family.

(** Once one of them was destroyed, the others can only be deleted (or load something else). *)
Theorem C102_gone : forall (A : Type) (xi : A) (g : A -> A) cs0 w rs0 i p f w1 cs w2 rs l j,
  run xi g start cs0 = Ok (w, rs0) -> step xi g w (Load i p f true) = Ok (w1, RNothing) ->
  run xi g w1 cs = Ok (w2, rs) -> history (Members [i]) cs rs = Gone l -> In j l ->
  step xi g w2 (Eval j) = UB /\ step xi g w2 (MinClone j) = UB /\ step xi g w2 (ToMomentumSpace j) = UB /\
  step xi g w2 (Destroy j) = UB /\ (exists w', step xi g w2 (Delete j) = Ok (w', RNothing)).
Proof. exact family_gone. Qed.
Print Assumptions C102_gone.

(** The object that was destroyed itself can be destroyed again, deleted, and can load again. *)
Theorem C102_destroyed : forall (A : Type) (xi : A) (g : A -> A) w i w1, step xi g w (Destroy i) = Ok (w1, RNothing) ->
  step xi g w1 (Destroy i) = Ok (w1, RNothing) /\ step xi g w1 (Eval i) = UB /\ step xi g w1 (ToMomentumSpace i) = UB /\
  (exists w', step xi g w1 (Delete i) = Ok (w', RNothing)) /\
  (forall p f, exists w', step xi g w1 (Load i p f true) = Ok (w', RNothing) /\ step xi g w' (Eval i) = Ok (w', RValue [p; f])).
Proof. exact destroyed. Qed.
Print Assumptions C102_destroyed.

(** Deleting an object touches neither data nor other objects, nor tables. *)
Theorem C102_delete : forall (A : Type) (xi : A) (g : A -> A) w i w1 r, step xi g w (Delete i) = Ok (w1, r) ->
  w_heap w1 = w_heap w /\ w_tables w1 = w_tables w /\ (forall j, j <> i -> nth_error (w_codes w1) j = nth_error (w_codes w) j) /\
  (forall c, In c [MinClone i; Destroy i; Delete i; Eval i; ToMomentumSpace i] -> step xi g w1 c = UB).
Proof. exact deleted_effect. Qed.
Print Assumptions C102_delete.

(** Memory is only given back by Destroy. *)
Theorem C102_kept : forall (A : Type) (xi : A) (g : A -> A) cs w w' rs q v,
  run xi g w cs = Ok (w', rs) -> (forall i, ~ In (Destroy i) cs) ->
  nth_error (w_heap w) q = Some (Some v) -> nth_error (w_heap w') q = Some (Some v).
Proof. exact never_released. Qed.
Print Assumptions C102_kept.

(** Evaluations of an object that does not load anything else give the same, or are not defined. *)
Theorem C102_stable : forall (A : Type) (xi : A) (g : A -> A) cs w w' rs i p f r,
  step xi g w (Eval i) = Ok (w, RValue [p; f]) -> run xi g w cs = Ok (w', rs) ->
  (forall p' f' b, ~ In (Load i p' f' b) cs) ->
  step xi g w' (Eval i) = Ok (w', r) -> r = RValue [p; f].
Proof. exact eval_stable. Qed.
Print Assumptions C102_stable.

(** Tables give the values of the moment at which they were made, whatever happens to the
    distribution function. *)
Theorem C102_table : forall (A : Type) (xi : A) (g : A -> A) w i w1 t p f cs w2 rs,
  step xi g w (Eval i) = Ok (w, RValue [p; f]) -> step xi g w (ToMomentumSpace i) = Ok (w1, RTable t) ->
  run xi g w1 cs = Ok (w2, rs) -> ~ In (TDelete t) cs -> step xi g w2 (TEval t) = Ok (w2, RValue [p; xi; g f]).
Proof. exact table_values. Qed.
Print Assumptions C102_table.

(** But they can be cloned only as long as no object with the data was destroyed. *)
Theorem C102_table_clone : forall (A : Type) (xi : A) (g : A -> A) cs0 w rs0 i p f w1 cs1 w2 rs1 l j w3 t cs2 w4 rs2,
  run xi g start cs0 = Ok (w, rs0) -> step xi g w (Load i p f true) = Ok (w1, RNothing) ->
  run xi g w1 cs1 = Ok (w2, rs1) -> history (Members [i]) cs1 rs1 = Members l -> In j l ->
  step xi g w2 (ToMomentumSpace j) = Ok (w3, RTable t) -> run xi g w3 cs2 = Ok (w4, rs2) -> ~ In (TDelete t) cs2 ->
  match history (Members l) cs2 rs2 with
  | Members _ => exists w5, step xi g w4 (TMinClone t) = Ok (w5, RTable (length (w_tables w4))) /\
      step xi g w5 (TEval (length (w_tables w4))) = Ok (w5, RValue [p; xi; g f])
  | Gone _ => step xi g w4 (TMinClone t) = UB
  end.
Proof. exact table_clone. Qed.
Print Assumptions C102_table_clone.

(** A table that was deleted must not be used any more, nothing else changes. *)
Theorem C102_table_delete : forall (A : Type) (xi : A) (g : A -> A) w t w1 r, step xi g w (TDelete t) = Ok (w1, r) ->
  w_heap w1 = w_heap w /\ w_codes w1 = w_codes w /\ (forall j, j <> t -> nth_error (w_tables w1) j = nth_error (w_tables w) j) /\
  (forall cs w2 rs, run xi g w1 cs = Ok (w2, rs) ->
     step xi g w2 (TEval t) = UB /\ step xi g w2 (TMinClone t) = UB /\ step xi g w2 (TDelete t) = UB).
Proof. exact table_deleted. Qed.
Print Assumptions C102_table_delete.

(** An object whose Load threw because of an unknown method can be neither evaluated, nor
    destroyed, nor deleted, until it loads something else. *)
Theorem C102_unknown_method : forall (A : Type) (xi : A) (g : A -> A) w i p f w1 r, step xi g w (Load i p f false) = Ok (w1, r) ->
  r = RThrow /\
  forall cs w2 rs, run xi g w1 cs = Ok (w2, rs) -> (forall p' f' b, ~ In (Load i p' f' b) cs) ->
    step xi g w2 (Eval i) = UB /\ step xi g w2 (Destroy i) = UB /\ step xi g w2 (Delete i) = UB.
Proof. exact unknown_method. Qed.
Print Assumptions C102_unknown_method.

(** New objects without data. *)
Theorem C102_new : forall (A : Type) (xi : A) (g : A -> A) w w1 r, step xi g w New = Ok (w1, r) ->
  exists i, r = RCode i /\ (forall k, nth_error (w_codes w) i <> Some k) /\
    step xi g w1 (Eval i) = UB /\ step xi g w1 (MinClone i) = UB /\ step xi g w1 (ToMomentumSpace i) = UB /\
    step xi g w1 (Destroy i) <> UB /\ step xi g w1 (Delete i) <> UB.
Proof. exact new_object. Qed.
Print Assumptions C102_new.

(** Destroying an object does not leave others alone. *)
Theorem C102_clone_lives_on_refuted : forall (A : Type) (xi : A) (g : A -> A), ~ (forall cs w rs i w1 j,
  run xi g start cs = Ok (w, rs) -> i <> j -> step xi g w (Eval j) <> UB -> step xi g w (Destroy i) = Ok (w1, RNothing) ->
  step xi g w1 (Eval j) <> UB).
Proof. exact clone_lives_on_false. Qed.
Print Assumptions C102_clone_lives_on_refuted.

(** Deleting the last object does not give back the memory. *)
Theorem C102_delete_frees_refuted : forall (A : Type) (xi : A) (g : A -> A), ~ (forall cs w rs i w1,
  run xi g start cs = Ok (w, rs) -> (forall j, j <> i -> nth_error (w_codes w) j = None) ->
  step xi g w (Delete i) = Ok (w1, RNothing) -> forall q v, nth_error (w_heap w1) q <> Some (Some v)).
Proof. exact delete_frees_false. Qed.
Print Assumptions C102_delete_frees_refuted.

(** Load, clone, make a table, delete the original, clone the clone; then destroy one of the two
    clones: the other one has lost its data, the table has not. *)
Example C102_example :
  let before := [New; Load 0 10 20 true; MinClone 0; ToMomentumSpace 1; Delete 0; MinClone 1] in
  match run 7 S start before with
  | Ok (w, rs) =>
      rs = [RCode 0; RNothing; RCode 1; RTable 0; RNothing; RCode 2] /\
      history (Members [0]) (skipn 2 before) (skipn 2 rs) = Members [2; 1] /\
      step 7 S w (Eval 2) = Ok (w, RValue [10; 20]) /\
      match step 7 S w (Destroy 1) with
      | Ok (w1, r) =>
          history (Members [0]) (skipn 2 before ++ [Destroy 1]) (skipn 2 rs ++ [r]) = Gone [2] /\
          step 7 S w1 (Eval 2) = UB /\ step 7 S w1 (TEval 0) = Ok (w1, RValue [10; 7; 21]) /\ step 7 S w1 (TMinClone 0) = UB
      | _ => False
      end
  | _ => False
  end.
Proof. vm_compute. repeat split. Qed.
