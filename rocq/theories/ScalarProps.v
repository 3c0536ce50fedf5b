(** Floating-point settings of configuration scripts (C91). *)
From Verif Require Import Base SettingsModel SettingsProofs SdtModel ScalarModel ScalarSpec ScalarProofs.
From Coq Require Import ZArith QArith.
Local Open Scope Z_scope.

(** A conversion to floating point depends only on the number, not on how it is written. *)
Definition by_value (rnd : Q -> option Q) : Prop := forall p q, (p == q)%Q -> rnd p = rnd q.

(** * C91: reading numbers from settings *)

(** Every text either starts with a number or does not; the number and its meaning are unique. *)
Theorem C91_number_or_not : forall s,
  ((exists p m, reads_as s p m) \/ no_number s) /\
  ~ ((exists p m, reads_as s p m) /\ no_number s) /\
  (forall p m p' m', reads_as s p m -> reads_as s p' m' -> p = p' /\ same_meaning m m').
Proof.
  intro s. split; [apply number_or_not|]. split.
  - intros [[p [m [ws [r [E [W [L _]]]]]]] N]. exact (N ws p r m E W L).
  - intros p m p' m' H H'. pose proof (reads_as_text s p m p' m' H H') as Ep. subst p'. split; [reflexivity|].
    destruct H as [_ [_ [_ [_ [L _]]]]]. destruct H' as [_ [_ [_ [_ [L' _]]]]]. exact (literal_unique p m m' L L').
Qed.
Print Assumptions C91_number_or_not.

Lemma stod_cases : forall rnd s, by_value rnd ->
  (forall p q, reads_as s p (MNum q) -> stod rnd s = match rnd q with Some v => StOk (DFin v) | None => StRange end) /\
  (forall p neg, reads_as s p (MInf neg) -> stod rnd s = StOk (DInfinity neg)) /\
  (forall p, reads_as s p MNan -> stod rnd s = StOk DNotANumber) /\
  (no_number s -> stod rnd s = StInvalid).
Proof.
  intros rnd s V. unfold stod. repeat split.
  - intros p q H. destruct (strtod_reads s p _ H) as [d [r [-> S]]]. destruct d; cbn in S; try contradiction.
    rewrite (V _ _ S). reflexivity.
  - intros p neg H. destruct (strtod_reads s p _ H) as [d [r [-> S]]]. destruct d; cbn in S; try contradiction.
    subst neg0. reflexivity.
  - intros p H. destruct (strtod_reads s p _ H) as [d [r [-> S]]]. destruct d; cbn in S; try contradiction. reflexivity.
  - intro H. rewrite (strtod_no_number s H). reflexivity.
Qed.

(** GetScalar reads the longest number at the front of the value, whatever follows it. *)
Theorem C91_get_scalar : forall rnd vals i, by_value rnd ->
  (nth_error vals i = None -> get_scalar_at rnd vals i = Throw) /\
  forall s, nth_error vals i = Some s ->
    (forall p q, reads_as s p (MNum q) ->
       get_scalar_at rnd vals i = match rnd q with Some v => Ok (DFin v) | None => Throw end) /\
    (forall p neg, reads_as s p (MInf neg) -> get_scalar_at rnd vals i = Ok (DInfinity neg)) /\
    (forall p, reads_as s p MNan -> get_scalar_at rnd vals i = Ok DNotANumber) /\
    (no_number s -> get_scalar_at rnd vals i = Throw).
Proof.
  intros rnd vals i V. unfold get_scalar_at, at_index. split; [intros ->; reflexivity|].
  intros s ->. cbn [obind]. destruct (stod_cases rnd s V) as [A [B [C D]]]. repeat split.
  - intros p q H. rewrite (A p q H). destruct (rnd q); reflexivity.
  - intros p neg H. rewrite (B p neg H). reflexivity.
  - intros p H. rewrite (C p H). reflexivity.
  - intro H. rewrite (D H). reflexivity.
Qed.
Print Assumptions C91_get_scalar.

(** The answer of IsScalar: no for anything but a single value; for a single value yes when
    it starts with a number, no when it does not, and an exception when the number is out
    of the range of a double. *)
Theorem C91_is_scalar : forall rnd vals, by_value rnd ->
  (length vals <> 1%nat -> is_scalar rnd vals = Ok false) /\
  forall s, vals = [s] ->
    (is_scalar rnd vals = Ok true <->
       (exists p q v, reads_as s p (MNum q) /\ rnd q = Some v) \/ (exists p neg, reads_as s p (MInf neg)) \/ (exists p, reads_as s p MNan)) /\
    (is_scalar rnd vals = Ok false <-> no_number s) /\
    (is_scalar rnd vals = Throw <-> exists p q, reads_as s p (MNum q) /\ rnd q = None).
Proof.
  intros rnd vals V. unfold is_scalar, only_value. split.
  { intro H. apply Nat.eqb_neq in H. rewrite H. reflexivity. }
  intros s ->. cbn [length Nat.eqb]. unfold is_scalar_at, at_index. cbn [nth_error obind].
  destruct (stod_cases rnd s V) as [A [B [C D]]]. destruct (C91_number_or_not s) as [_ [X _]].
  destruct (number_or_not s) as [[p [m H]]|H].
  - assert (N : ~ no_number s). { intro N. apply X. split; [exists p, m; exact H|exact N]. }
    assert (U : forall p' m', reads_as s p' m' -> same_meaning m m').
    { intros p' m' H'. destruct (C91_number_or_not s) as [_ [_ U]]. exact (proj2 (U p m p' m' H H')). }
    destruct m as [q|neg|].
    + rewrite (A p q H). destruct (rnd q) as [v|] eqn:E.
      * split; [|split]; split; try discriminate; try contradiction; try tauto.
        -- intros _. left. exists p, q, v. split; assumption.
        -- intros [p' [q' [H' E']]]. specialize (U _ _ H'). cbn in U. rewrite <- (V _ _ U), E in E'. discriminate.
      * split; [|split]; split; try discriminate; try contradiction; try tauto.
        -- intros [[p' [q' [v [H' E']]]]|[[p' [neg H']]|[p' H']]]; specialize (U _ _ H'); cbn in U; try contradiction.
           rewrite <- (V _ _ U), E in E'. discriminate.
        -- intros _. exists p, q. split; assumption.
    + rewrite (B p neg H). split; [|split]; split; try discriminate; try contradiction; try tauto.
      * intros _. right. left. exists p, neg. exact H.
      * intros [p' [q' [H' E']]]. specialize (U _ _ H'). cbn in U. contradiction.
    + rewrite (C p H). split; [|split]; split; try discriminate; try contradiction; try tauto.
      * intros _. right. right. exists p. exact H.
      * intros [p' [q' [H' E']]]. specialize (U _ _ H'). cbn in U. contradiction.
  - assert (N : forall p m, ~ reads_as s p m). { intros p m R. apply X. split; [exists p, m; exact R|exact H]. }
    rewrite (D H). split; [|split]; split; try discriminate; try tauto.
    + intros [[p' [q' [v [H' E']]]]|[[p' [neg H']]|[p' H']]]; exfalso; exact (N _ _ H').
    + intros [p' [q' [H' E']]]. exfalso. exact (N _ _ H').
Qed.
Print Assumptions C91_is_scalar.

Lemma obind_list_cons : forall A B (f : A -> outcome B) x r,
  obind_list f (x :: r) = obind (f x) (fun y => obind (obind_list f r) (fun ys => Ok (y :: ys))).
Proof. reflexivity. Qed.

(** What IsScalar promises is kept by GetScalar, and what IsNumericVector promises by
    GetNumericVector: as many numbers as there are values, each the one GetScalar returns. *)
Theorem C91_checked_reads : forall rnd vals,
  (is_scalar rnd vals = Ok true -> exists d, get_scalar_at rnd vals 0 = Ok d) /\
  (is_numeric_vector rnd vals = Ok true -> exists l, get_numeric_vector rnd vals = Ok l) /\
  (forall l, get_numeric_vector rnd vals = Ok l ->
     length l = length vals /\ forall i, (i < length vals)%nat -> exists d, nth_error l i = Some d /\ get_scalar_at rnd vals i = Ok d) /\
  (get_numeric_vector rnd vals = Throw <-> exists i, (i < length vals)%nat /\ get_scalar_at rnd vals i = Throw) /\
  get_numeric_vector rnd vals <> UB.
Proof.
  intros rnd vals. split; [|split; [|split; [|split]]].
  - unfold is_scalar, only_value. destruct (Nat.eqb_spec (length vals) 1) as [E|E]; [|discriminate].
    destruct vals as [|s [|? ?]]; try discriminate. unfold is_scalar_at, get_scalar_at, at_index. cbn [nth_error obind].
    destruct (stod rnd s); try discriminate. intros _. eexists. reflexivity.
  - unfold get_numeric_vector. induction vals as [|s r IH]; cbn [is_numeric_vector]; [intros _; exists []; reflexivity|].
    destruct (stod rnd s) eqn:E; try discriminate. intro H. destruct (IH H) as [l Hl].
    exists (d :: l). rewrite obind_list_cons, E. cbn [obind]. rewrite Hl. reflexivity.
  - intros l H. destruct (obind_list_ok _ _ _ _ _ H) as [L A]. split; [exact L|]. intros i Hi.
    destruct (nth_error vals i) as [s|] eqn:E; [|apply nth_error_None in E; lia].
    destruct (A i s E) as [d [Hd Hs]]. exists d. split; [exact Hd|]. unfold get_scalar_at, at_index. rewrite E. exact Hs.
  - unfold get_numeric_vector. induction vals as [|s r IH].
    + split; [discriminate|]. intros [i [Hi _]]. cbn in Hi. lia.
    + rewrite obind_list_cons.
      destruct (stod rnd s) eqn:E; cbn [obind].
      * destruct (obind_list _ r) as [l| |] eqn:G; cbn [obind].
        -- split; [discriminate|]. intros [[|i] [Hi Hs]].
           ++ unfold get_scalar_at, at_index in Hs. cbn [nth_error obind] in Hs. rewrite E in Hs. discriminate.
           ++ exfalso. assert (G' : Ok l = @Throw (list dbl)); [|discriminate]. apply IH. exists i. split; [cbn in Hi; lia|exact Hs].
        -- split; [intros _|reflexivity]. destruct (proj1 IH eq_refl) as [i [Hi Hs]]. exists (S i). split; [cbn; lia|exact Hs].
        -- split; [discriminate|]. intros [[|i] [Hi Hs]].
           ++ unfold get_scalar_at, at_index in Hs. cbn [nth_error obind] in Hs. rewrite E in Hs. discriminate.
           ++ exfalso. assert (G' : UB = @Throw (list dbl)); [|discriminate]. apply IH. exists i. split; [cbn in Hi; lia|exact Hs].
      * split; [intros _|reflexivity]. exists 0%nat. split; [cbn; lia|]. unfold get_scalar_at, at_index. cbn [nth_error obind]. rewrite E. reflexivity.
      * split; [intros _|reflexivity]. exists 0%nat. split; [cbn; lia|]. unfold get_scalar_at, at_index. cbn [nth_error obind]. rewrite E. reflexivity.
  - unfold get_numeric_vector. induction vals as [|s r IH]; [discriminate|]. rewrite obind_list_cons.
    destruct (stod rnd s); cbn [obind]; try discriminate.
    destruct (obind_list _ r); cbn [obind]; try discriminate. contradiction.
Qed.
Print Assumptions C91_checked_reads.

(** IsNumericVector looks at the values in order: yes when every one is a number, no at the
    first that is not one, an exception at the first that is out of range; with an expected
    number of values, no for any other number. *)
Theorem C91_is_numeric_vector : forall rnd vals,
  (is_numeric_vector rnd vals = Ok true <-> forall s, In s vals -> is_scalar rnd [s] = Ok true) /\
  (forall a s b, vals = a ++ s :: b -> (forall x, In x a -> is_scalar rnd [x] = Ok true) -> is_scalar rnd [s] <> Ok true ->
     is_numeric_vector rnd vals = is_scalar rnd [s]) /\
  (forall n, is_numeric_vector_of rnd vals n = if Nat.eqb n (length vals) then is_numeric_vector rnd vals else Ok false).
Proof.
  intros rnd vals. split; [|split].
  - induction vals as [|s r IH]; cbn [is_numeric_vector].
    + split; [intros _ s []|reflexivity].
    + assert (E : is_scalar rnd [s] = match stod rnd s with StOk _ => Ok true | StInvalid => Ok false | StRange => Throw end) by reflexivity.
      destruct (stod rnd s) eqn:S.
      * rewrite IH. split.
        -- intros H x [<-|Hx]; [exact E|exact (H x Hx)].
        -- intros H x Hx. apply H. right. exact Hx.
      * split; [discriminate|]. intro H. specialize (H s (or_introl eq_refl)). rewrite E in H. exact H.
      * split; [discriminate|]. intro H. specialize (H s (or_introl eq_refl)). rewrite E in H. exact H.
  - intros a s b -> Ha Hs. induction a as [|x a IH]; cbn [app is_numeric_vector].
    + unfold is_scalar, only_value, is_scalar_at, at_index in *. cbn in *. destruct (stod rnd s); [contradiction|reflexivity|reflexivity].
    + pose proof (Ha x (or_introl eq_refl)) as Hx. unfold is_scalar, only_value, is_scalar_at, at_index in Hx. cbn in Hx.
      destruct (stod rnd x); try discriminate. apply IH. intros y Hy. apply Ha. right. exact Hy.
  - intro n. unfold is_numeric_vector_of. rewrite Nat.eqb_sym. destruct (Nat.eqb n (length vals)); reflexivity.
Qed.
Print Assumptions C91_is_numeric_vector.

Lemma decimal_positional : forall ds a, (forall c, In c ds -> digit c) ->
  fold_left (fun a c => 10 * a + (Z.of_nat (nat_of_ascii c) - 48)) ds a = a * 10 ^ Z.of_nat (length ds) + positional 10 ds.
Proof.
  induction ds as [|c r IH]; intros a H; cbn [fold_left length positional].
  - change (10 ^ Z.of_nat 0) with 1. lia.
  - rewrite IH by (intros d Hd; apply H; right; exact Hd). rewrite Nat2Z.inj_succ, Z.pow_succ_r by lia.
    assert (D : digit_value c = Z.of_nat (nat_of_ascii c) - 48).
    { unfold digit_value. specialize (H c (or_introl eq_refl)). unfold digit in H.
      destruct (Z.leb_spec (Z.of_nat (nat_of_ascii c)) 57); [reflexivity|lia]. }
    rewrite D. ring.
Qed.

(** The integer readers and the floating-point readers agree on integers. *)
Theorem C91_integers_are_scalars : forall rnd s z, by_value rnd -> is_int64 [s] = Ok true -> get_int64 [s] 0 = Ok z ->
  get_scalar_at rnd [s] 0 = match rnd (inject_Z z) with Some v => Ok (DFin v) | None => Throw end.
Proof.
  intros rnd s z V H G.
  assert (W : whole (sto_signed 64 s) = true).
  { unfold is_int64, only_value, is_int64_at, at_index in H. cbn in H. congruence. }
  apply whole_signed in W. destruct W as [neg [m [N R]]].
  assert (G' : z = signed neg m).
  { unfold get_int64, at_index in G. cbn [nth_error obind] in G. rewrite (signed_value 64 s neg m N R) in G. cbn in G. congruence. }
  subst z. destruct N as [ws [sg [ds [E [A [S [D [C Em]]]]]]]].
  assert (L : literal (sg ++ ds ++ []) (MNum (inject_Z (signed neg (positional 10 (ds ++ []))) * Qpower 10 (0 - Z.of_nat (@length ascii []))))).
  { apply lit_dec; [exact S|constructor; assumption|constructor]. }
  rewrite !app_nil_r in L.
  assert (RA : reads_as s (sg ++ ds) (MNum (inject_Z (signed neg (positional 10 ds)) * Qpower 10 (0 - Z.of_nat (@length ascii []))))).
  { exists ws, []. rewrite app_nil_r. split; [exact E|]. split; [exact A|]. split; [exact L|].
    intros p' r' m' Ep _. rewrite Ep, app_length. lia. }
  destruct (C91_get_scalar rnd [s] 0 V) as [_ K]. destruct (K s eq_refl) as [K1 _]. rewrite (K1 _ _ RA).
  rewrite (V _ (inject_Z (signed neg m))); [reflexivity|].
  assert (Ed : positional 10 ds = m).
  { rewrite Em. unfold decimal. rewrite (decimal_positional ds 0 C). lia. }
  rewrite Ed. change (Qpower 10 (0 - Z.of_nat (@length ascii []))) with 1%Q. rewrite Qmult_1_r. reflexivity.
Qed.
Print Assumptions C91_integers_are_scalars.

(** IsScalar does not always answer: a number that is too large makes it throw, although a
    text that is no number at all is answered with no. *)
Theorem C91_is_scalar_answers_refuted : forall rnd, by_value rnd -> rnd (inject_Z (10 ^ 999)) = None ->
  is_scalar rnd [str_of "1e999"] = Throw /\ is_numeric_vector rnd [str_of "1e999"] = Throw /\
  is_scalar rnd [str_of "much"] = Ok false.
Proof.
  intros rnd V H.
  assert (E : strtod (str_of "1e999") = Some (DNum (inject_Z (10 ^ 999)), [])) by (vm_compute; reflexivity).
  repeat split.
  - unfold is_scalar, only_value, is_scalar_at, at_index, stod. cbn [length Nat.eqb nth_error obind]. rewrite E, H. reflexivity.
  - unfold is_numeric_vector, stod. rewrite E, H. reflexivity.
Qed.
Print Assumptions C91_is_scalar_answers_refuted.

(** Unlike the integer checks, IsScalar does not require the whole value to be a number. *)
Theorem C91_whole_value_refuted : forall rnd v, by_value rnd -> rnd 12%Q = Some v ->
  is_scalar rnd [str_of "12abc"] = Ok true /\ get_scalar_at rnd [str_of "12abc"] 0 = Ok (DFin v) /\
  is_int64 [str_of "12abc"] = Ok false.
Proof.
  intros rnd v V H.
  assert (E : strtod (str_of "12abc") = Some (DNum 12%Q, str_of "abc")) by (vm_compute; reflexivity).
  repeat split.
  - unfold is_scalar, only_value, is_scalar_at, at_index, stod. cbn [length Nat.eqb nth_error obind]. rewrite E, H. reflexivity.
  - unfold get_scalar_at, at_index, stod. cbn [nth_error obind]. rewrite E, H. reflexivity.
Qed.
Print Assumptions C91_whole_value_refuted.

(** A conversion by value, and texts of every kind. *)
Example C91_example : by_value (fun q => Some (Qred q)) /\
  get_scalar_at (fun q => Some (Qred q)) [str_of " -1.25e+2m"] 0 = Ok (DFin (-125)) /\
  get_scalar_at (fun q => Some (Qred q)) [str_of "0x1.8p1"] 0 = Ok (DFin 3) /\
  get_scalar_at (fun q => Some (Qred q)) [str_of "0xyz"] 0 = Ok (DFin 0) /\
  get_scalar_at (fun q => Some (Qred q)) [str_of ".5e"] 0 = Ok (DFin (1 # 2)) /\
  get_scalar_at (fun q => Some (Qred q)) [str_of "-Infinit"] 0 = Ok (DInfinity true) /\
  get_scalar_at (fun q => Some (Qred q)) [str_of "nan(x"] 0 = Ok DNotANumber /\
  is_scalar (fun q => Some (Qred q)) [str_of "."] = Ok false /\
  get_numeric_vector (fun q => Some (Qred q)) [str_of "1"; str_of "2.5"] = Ok [DFin 1; DFin (5 # 2)] /\
  is_numeric_vector (fun q => Some (Qred q)) [] = Ok true.
Proof. split; [intros p q H; f_equal; apply Qred_complete; exact H|]. repeat split; vm_compute; reflexivity. Qed.
