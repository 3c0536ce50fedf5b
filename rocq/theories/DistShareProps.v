(** C109: sharing of arrays and momentum-space functions. *)
From Coq Require Import Reals Lra Lia.
From Verif Require Import Base DomainModel AnalyticalModel NumericModel NumericSpec NumericArrays DistributionModel DistributionSpec DistributionProofs DistributionUse DistShareModel DistShareSpec DistShareProofs.
Open Scope R_scope.

Lemma firstn_exact : forall (T : Type) (l r : list T), firstn (length l) (l ++ r) = l.
Proof. intros T l r. rewrite firstn_app, Nat.sub_diag, firstn_O, app_nil_r. apply firstn_all. Qed.

Section C109.
Variable A : Type.
Variables (gt : A -> A -> bool) (fit : bool -> list A -> bool) (neg : A -> bool) (lg slog : A -> A) (val : view A -> R -> R -> outcome (option R)).
Notation stp := (step gt fit neg lg slog val).
Notation rn := (run gt fit neg lg slog val).
Notation nev := (never gt fit neg lg slog val).

(** The value of a momentum-space function at a point stays the same as long as no call names it
    to change it and no call changes all functions of a distribution that has it.  In particular
    the arrays it was made from may be overwritten or released, other functions and distributions
    made, changed and deleted. *)
Theorem C109_values : forall cs w w' j p xi v, rn w cs = Ok w' -> nev (fun w c => touches w c j) w cs ->
  stp w (EvalM j p xi) = Ok (w, RVal v) -> stp w' (EvalM j p xi) = Ok (w', RVal v).
Proof.
  intros cs w w' j p xi v H N E. apply eval_m in E. apply eval_m. apply (eval_mom_keeps _ _ (w_moms w)); [|exact E].
  intros x X. apply (run_keeps _ _ _ _ _ _ _ cs w w' j x H N X).
Qed.

(** The same for a distribution function, if it is not itself changed. *)
Theorem C109_distribution : forall cs w w' d r p xi s v, rn w cs = Ok w' ->
  nev (fun w c => changes c d \/ exists js j, points w d js /\ In j js /\ touches w c j) w cs ->
  stp w (EvalD d r p xi s) = Ok (w, RVal v) -> stp w' (EvalD d r p xi s) = Ok (w', RVal v).
Proof.
  intros cs w w' d r p xi s v H N E. apply eval_d in E. destruct E as (o & O & E). apply eval_d. exists o.
  apply (run_keeps_dist _ _ _ _ _ _ _ cs w w' d o r p xi s v H N O E).
Qed.

(** A copy has the contents the arrays have when it is made, the method and the pitch sign of the
    original, and is never logarithmic.  It is a new function; nothing else changes. *)
Theorem C109_clone : forall w w' j k m g p xi f, nth_error (w_moms w) j = Some (Some m) -> m_given m = Some g -> contents w g p xi f ->
  stp w (CloneM j) = Ok (w', RMom k) ->
  exists a b c d m', nth_error p 0 = Some a /\ nth_error p (length p - 1) = Some b /\ nth_error xi 0 = Some c /\ nth_error xi (length xi - 1) = Some d /\
    k = length (w_moms w) /\ w' = mkWorld (w_heap w) (w_moms w ++ [Some m']) (w_dists w) /\ m_given m' = Some g /\
    view_of m' = Ok (mkView (a, b, c, d) (Some (m_cubic m, p, xi, f)) (m_flip m) false).
Proof.
  intros w w' j k m g p xi f M G C H. cbn [step] in H. apply contents_read in C. destruct C as (C1 & C2 & C3).
  apply obind_ok in H. destruct H as (m0 & M0 & H). apply mom_at_ok in M0. rewrite M in M0. injection M0 as <-.
  apply obind_ok in H. destruct H as ([c ok] & C & H). cbn [fst snd] in H. destruct ok; [|discriminate]. injection H as <- <-.
  unfold clone_mom in C. rewrite G in C. apply obind_ok in C. destruct C as ([c0 ok0] & C & Q). cbn [fst snd] in Q. injection Q as <- ->.
  destruct (initialize_ok _ _ _ _ _ _ _ _ _ C) as (p' & xi' & a & b & cc & d & P & X & E1 & E2 & E3 & E4 & _ & _ & T).
  rewrite C1 in P. injection P as <-. rewrite C2 in X. injection X as <-. destruct (T eq_refl) as (f' & F & -> & _). rewrite C3 in F. injection F as <-.
  exists a, b, cc, d. eexists. repeat (split; [eassumption || reflexivity|]). cbn. destruct (m_cubic m); reflexivity.
Qed.

(** Hence a copy of a function that is not logarithmic has the same values as the original, if the
    arrays still hold what they held when the original was initialised. *)
Theorem C109_clone_same : forall cs w0 w1 w2 j m0 g it, nth_error (w_moms w0) j = Some (Some m0) -> m_log m0 = false ->
  stp w0 (InitM j g it) = Ok (w1, RUnit) -> rn w1 cs = Ok w2 -> nev (fun w c => touches w c j) w1 cs ->
  (forall b, b = fst (g_p g) \/ b = fst (g_xi g) \/ b = fst (g_f g) -> nev (fun _ c => writes c b) w1 cs) ->
  exists w3 k, stp w2 (CloneM j) = Ok (w3, RMom k) /\ k <> j /\
    forall p xi, eval_mom val (w_moms w3) k p xi = eval_mom val (w_moms w3) j p xi /\ eval_mom val (w_moms w3) j p xi = eval_mom val (w_moms w2) j p xi.
Proof.
  intros cs w0 w1 w2 j m0 g it M NL I H N W. cbn [step] in I.
  apply obind_ok in I. destruct I as (m & M' & I). apply mom_at_ok in M'. rewrite M in M'. injection M' as <-.
  apply obind_ok in I. destruct I as ([m1 ok] & C & I). cbn [fst snd] in I. destruct ok; [|discriminate]. injection I as <-.
  destruct (initialize_ok _ _ _ _ _ _ _ _ _ C) as (p & xi & a & b & c & d & P & X & E1 & E2 & E3 & E4 & OK & _ & T).
  destruct (T eq_refl) as (f & F & EQ & T1 & T2). clear T. symmetry in OK. apply Bool.negb_true_iff, Bool.orb_false_iff in OK. destruct OK as [G1 G2].
  assert (J : nth_error (w_moms w2) j = Some (Some m1)).
  { apply (run_keeps _ _ _ _ _ _ _ cs _ w2 j _ H N). cbn [w_moms]. apply put_at_same. apply (some_lt _ _ _ _ M). }
  assert (L1 : forall (l : list A) i x, nth_error l i = Some x -> (1 <= length l)%nat) by (intros l i x Q; pose proof (some_lt _ _ _ _ Q); lia).
  pose proof (read_inv _ _ _ _ _ P) as [LP _]. pose proof (read_inv _ _ _ _ _ X) as [LX _]. pose proof (read_inv _ _ _ _ _ F) as [LF _].
  assert (NZ : (1 <= length f)%nat). { rewrite LF, <- LP, <- LX. pose proof (L1 _ _ _ E1). pose proof (L1 _ _ _ E3). destruct p; [cbn in *; lia|]. destruct xi; cbn in *; lia. }
  assert (RD : forall q n l, read (w_heap w0) q n = Ok l -> (1 <= length l)%nat -> fst q = fst (g_p g) \/ fst q = fst (g_xi g) \/ fst q = fst (g_f g) -> read (w_heap w2) q n = Ok l).
  { intros q n l Q LL B. unfold read, cells in *. destruct (nth_error (w_heap w0) (fst q)) as [[x|]|] eqn:E.
    - rewrite (run_memory _ _ _ _ _ _ _ cs _ w2 (fst q) (Some x) H (W _ B) E). exact Q.
    - exfalso. cbn [length] in Q. destruct n; [|discriminate]. injection Q as <-. cbn in LL. lia.
    - exfalso. cbn [length] in Q. destruct n; [|discriminate]. injection Q as <-. cbn in LL. lia. }
  assert (P2 : read (w_heap w2) (g_p g) (g_np g) = Ok p) by (apply RD; [exact P|apply (L1 _ _ _ E1)|left; reflexivity]).
  assert (X2 : read (w_heap w2) (g_xi g) (g_nxi g) = Ok xi) by (apply RD; [exact X|apply (L1 _ _ _ E3)|right; left; reflexivity]).
  assert (F2 : read (w_heap w2) (g_f g) (g_np g * g_nxi g) = Ok f) by (apply RD; [exact F|exact NZ|right; right; reflexivity]).
  pose proof (initialize_do A gt fit (w_heap w2) new_mom g (if m_cubic m1 then 1 else 0)%Z p xi f a b c d P2 X2 F2 E1 E2 E3 E4 G1 G2) as K.
  assert (IC : negb ((if m_cubic m1 then 1 else 0) =? 0)%Z = negb (it =? 0)%Z) by (rewrite EQ; cbn [m_cubic]; destruct (it =? 0)%Z; reflexivity).
  rewrite IC in K at 1 2. specialize (K T1 T2).
  set (m2 := set_flip (m_flip m1) (mkMom (Some g) (Some (a, b, c, d)) (Some (negb ((if m_cubic m1 then 1 else 0) =? 0)%Z, p, xi, f)) false false (negb ((if m_cubic m1 then 1 else 0) =? 0)%Z))).
  exists (mkWorld (w_heap w2) (w_moms w2 ++ [Some m2]) (w_dists w2)), (length (w_moms w2)).
  assert (S : stp w2 (CloneM j) = Ok (mkWorld (w_heap w2) (w_moms w2 ++ [Some m2]) (w_dists w2), RMom (length (w_moms w2)))).
  { cbn [step]. rewrite (proj2 (mom_at_ok A _ _ _) J). cbn [obind]. unfold clone_mom. rewrite EQ at 1. cbn [m_given]. rewrite K. reflexivity. }
  split; [exact S|]. split; [pose proof (some_lt _ _ _ _ J); lia|]. intros x y. cbn [w_moms].
  assert (Q : eval_mom val (w_moms w2 ++ [Some m2]) j x y = eval_mom val (w_moms w2) j x y).
  { unfold eval_mom, mom_at. rewrite (nth_app_l _ _ _ _ _ J), J. reflexivity. }
  split; [|exact Q]. rewrite Q. unfold eval_mom, mom_at. rewrite nth_error_app2, Nat.sub_diag, J by lia. cbn [nth_error obind].
  unfold m2. rewrite EQ. unfold view_of. cbn [set_flip m_range m_spline m_flip m_log m_cubic]. rewrite NL. destruct (it =? 0)%Z; reflexivity.
Qed.

(** Copying a function one of whose arrays has been released is undefined, although the function
    itself can still be evaluated (C109_values). *)
Theorem C109_clone_dangling : forall w j m g b, nth_error (w_moms w) j = Some (Some m) -> m_given m = Some g ->
  nth_error (w_heap w) b = Some None -> (1 <= g_np g)%nat -> (1 <= g_nxi g)%nat -> b = fst (g_p g) \/ b = fst (g_xi g) -> stp w (CloneM j) = UB.
Proof.
  intros w j m g b M G F N1 N2 B. cbn [step]. rewrite (proj2 (mom_at_ok A _ _ _) M). cbn [obind]. unfold clone_mom. rewrite G. unfold initialize.
  assert (D : forall q n, nth_error (w_heap w) (fst q) = Some None -> (1 <= n)%nat -> read (w_heap w) q n = UB).
  { intros q n Q L. unfold read, cells. rewrite Q. destruct n; [lia|reflexivity]. }
  assert (RU : forall q n, (exists l, read (w_heap w) q n = Ok l) \/ read (w_heap w) q n = UB).
  { intros q n. unfold read. destruct (length (cells (w_heap w) q) <? n)%nat; [right; reflexivity|left; eexists; reflexivity]. }
  destruct B as [->| ->].
  - rewrite (D _ _ F N1). reflexivity.
  - destruct (RU (g_p g) (g_np g)) as [(l & ->)| ->]; [|reflexivity]. cbn [obind]. rewrite (D _ _ F N2). reflexivity.
Qed.

(** Initialising a function again keeps its pitch sign and its logarithmic mark. *)
Theorem C109_initialize : forall w w' j m g it p xi f, nth_error (w_moms w) j = Some (Some m) -> contents w g p xi f -> stp w (InitM j g it) = Ok (w', RUnit) ->
  exists a b c d m', nth_error p 0 = Some a /\ nth_error p (length p - 1) = Some b /\ nth_error xi 0 = Some c /\ nth_error xi (length xi - 1) = Some d /\
    nth_error (w_moms w') j = Some (Some m') /\ view_of m' = Ok (mkView (a, b, c, d) (Some (negb (it =? 0)%Z, p, xi, f)) (m_flip m) (m_log m)) /\
    w_heap w' = w_heap w /\ w_dists w' = w_dists w /\ length (w_moms w') = length (w_moms w) /\ forall i, i <> j -> nth_error (w_moms w') i = nth_error (w_moms w) i.
Proof.
  intros w w' j m g it p xi f M C H. cbn [step] in H. apply contents_read in C. destruct C as (C1 & C2 & C3).
  apply obind_ok in H. destruct H as (m0 & M0 & H). apply mom_at_ok in M0. rewrite M in M0. injection M0 as <-.
  apply obind_ok in H. destruct H as ([c ok] & C & H). cbn [fst snd] in H. destruct ok; [|discriminate]. injection H as <-.
  destruct (initialize_ok _ _ _ _ _ _ _ _ _ C) as (p' & xi' & a & b & cc & d & P & X & E1 & E2 & E3 & E4 & _ & _ & T).
  rewrite C1 in P. injection P as <-. rewrite C2 in X. injection X as <-. destruct (T eq_refl) as (f' & F & -> & _). rewrite C3 in F. injection F as <-.
  exists a, b, cc, d. eexists. repeat (split; [eassumption|]). cbn [w_moms w_heap w_dists].
  split; [apply put_at_same; apply (some_lt _ _ _ _ M)|]. repeat (split; [reflexivity|]). split; [apply put_at_length|].
  intros i N. apply put_at_other. congruence.
Qed.

(** Flipping a distribution flips the functions it has, and nothing else. *)
Theorem C109_flip : forall w w' d v js, points w d js -> stp w (FlipD d v) = Ok (w', RUnit) ->
  w_heap w' = w_heap w /\ w_dists w' = w_dists w /\ length (w_moms w') = length (w_moms w) /\
  (forall j, ~ In j js -> nth_error (w_moms w') j = nth_error (w_moms w) j) /\
  (forall j, In j js -> exists m m', nth_error (w_moms w) j = Some (Some m) /\ nth_error (w_moms w') j = Some (Some m') /\
     m_flip m' = v /\ m_log m' = m_log m /\ m_range m' = m_range m /\ m_spline m' = m_spline m /\ m_given m' = m_given m /\ m_cubic m' = m_cubic m).
Proof.
  intros w w' d v js (o & O & <-) H. cbn [step] in H. apply dist_at_ok in O. rewrite O in H. cbn [obind] in H.
  apply obind_ok in H. destruct H as (ms' & F & H). injection H as <-. cbn [w_heap w_dists w_moms].
  destruct (flip_all_spec _ _ _ _ _ F) as (L & K1 & K2). repeat (split; [reflexivity || assumption|]).
  intros j J. destruct (K2 j J) as (m & M1 & M2). exists m, (set_flip v m). repeat (split; [assumption || reflexivity|]). reflexivity.
Qed.

(** A copy of a distribution has new functions only, one for each radius and each once; nothing
    that was there changes. *)
Theorem C109_copy : forall w w' d n, stp w (CloneD d) = Ok (w', RDist n) ->
  n = length (w_dists w) /\ w_heap w' = w_heap w /\
  (forall e, (e < length (w_dists w))%nat -> nth_error (w_dists w') e = nth_error (w_dists w) e) /\
  (forall j, (j < length (w_moms w))%nat -> nth_error (w_moms w') j = nth_error (w_moms w) j) /\
  exists o js, nth_error (w_dists w) d = Some (Some o) /\ points w' n js /\ NoDup js /\ length js = length (rd_r o) /\
    forall j, In j js <-> (length (w_moms w) <= j < length (w_moms w'))%nat.
Proof.
  intros w w' d n H. cbn [step] in H. apply obind_ok in H. destruct H as (o & O & H). apply dist_at_ok in O.
  apply obind_ok in H. destruct H as ([[ms' o']|] & C & H); [|discriminate]. injection H as <- <-.
  destruct (clone_all_spec _ _ _ _ _ _ _ _ _ _ _ C) as (new & -> & LN & LJ & IN & ND). cbn [w_heap w_moms w_dists].
  split; [reflexivity|]. split; [reflexivity|]. split; [intros e L; apply nth_error_app1; exact L|]. split; [intros j L; apply nth_error_app1; exact L|].
  exists o, (rd_ms o'). split; [exact O|]. split; [exists o'; cbn [w_dists]; split; [rewrite nth_error_app2, Nat.sub_diag by lia; reflexivity|reflexivity]|].
  split; [apply ND; [apply NoDup_nil|intros j []]|]. split; [cbn [rd_new rd_ms length] in LJ; lia|].
  intro j. rewrite IN, app_length, map_length, LN. cbn [rd_new rd_ms In]. intuition lia.
Qed.

(** Hence in every history, flipping or initialising the copy leaves all values of every other
    distribution as they were, and flipping or initialising another one leaves those of the copy. *)
Theorem C109_independent : forall hist w w1 n d c, rn start hist = Ok w -> stp w (CloneD d) = Ok (w1, RDist n) ->
  forall w2 r e, stp w1 c = Ok (w2, r) ->
  (exists v, c = FlipD n v) \/ (exists rs g it, c = InitD n rs g it) \/ (exists rs g it, c = InitLogD n rs g it) -> e <> n ->
  forall x p xi s y, stp w1 (EvalD e x p xi s) = Ok (w1, RVal y) -> stp w2 (EvalD e x p xi s) = Ok (w2, RVal y).
Proof.
  intros hist w w1 n d c RN CL w2 r e S K NE x p xi s y E.
  pose proof (run_sound _ _ _ _ _ _ _ hist start w (start_sound A) RN) as V.
  destruct (C109_copy w w1 d n CL) as (EN & _ & OLD & _ & o & js & _ & PT & _ & _ & IN).
  apply (C109_distribution [c] w1 w2 e x p xi s y); [cbn [run]; rewrite S; reflexivity| |exact E].
  split; [|rewrite S; exact I].
  assert (FAR : forall js' j, points w1 e js' -> In j js' -> ~ In j js).
  { intros js' j (o' & O' & <-) J J2. apply IN in J2.
    assert (L : (e < length (w_dists w))%nat).
    { pose proof (some_lt _ _ _ _ O') as L. cbn [step] in CL. apply obind_ok in CL. destruct CL as (o1 & _ & CL). apply obind_ok in CL. destruct CL as ([[ms' o2]|] & _ & CL); [|discriminate].
      injection CL as <- <-. cbn [w_dists] in L. rewrite app_length in L. cbn [length] in L. lia. }
    rewrite (OLD e L) in O'. pose proof (V e (rd_ms o') j ltac:(exists o'; split; [exact O'|reflexivity]) J). lia. }
  assert (ONE : forall js', points w1 n js' -> js' = js).
  { intros js' (o1 & O1 & <-). destruct PT as (o2 & O2 & <-). rewrite O1 in O2. injection O2 as ->. reflexivity. }
  intros [C|(js' & j & P & J & T)].
  - destruct K as [(v & ->)|[(rs & g & it & ->)|(rs & g & it & ->)]]; cbn [changes] in C; [contradiction|congruence|congruence].
  - assert (Q : exists js2, points w1 n js2 /\ In j js2) by (destruct K as [(v & ->)|[(rs & g & it & ->)|(rs & g & it & ->)]]; exact T).
    destruct Q as (js2 & P2 & J2). rewrite (ONE _ P2) in J2. apply (FAR _ _ P J J2).
Qed.

(** Inserting a table logarithmically, with the default argument, replaces exactly the numbers of
    the table by their logarithms in the caller's array. *)
Theorem C109_overwritten : forall w w' d x g it p xi f i, contents w g p xi f -> (1 <= length f)%nat -> stp w (InsertLogT d x g it false) = Ok (w', RIndex i) ->
  (exists before after, nth_error (w_heap w) (fst (g_f g)) = Some (Some (before ++ f ++ after)) /\ length before = snd (g_f g) /\
     nth_error (w_heap w') (fst (g_f g)) = Some (Some (before ++ map slog f ++ after))) /\
  (forall b, b <> fst (g_f g) -> nth_error (w_heap w') b = nth_error (w_heap w) b) /\ length (w_heap w') = length (w_heap w).
Proof.
  intros w w' d x g it p xi f i C NZ H. cbn [step] in H. apply contents_read in C. destruct C as (_ & _ & C3).
  apply obind_ok in H. destruct H as (o & O & H). rewrite C3 in H. cbn [obind] in H. apply obind_ok in H. destruct H as ([w1 z] & C & H). cbn [fst snd] in H.
  destruct (insert_table_spec _ _ _ _ _ _ _ _ _ _ _ C) as (c & ok & r1 & i1 & -> & _). cbn [w_moms w_heap w_dists] in H. destruct z as [z|]; [|discriminate].
  apply obind_ok in H. destruct H as (m & M & H). injection H as <- <-. cbn [w_heap].
  pose proof (read_inv _ _ _ _ _ C3) as [LF (rest & CE)]. unfold cells in CE. unfold write.
  destruct (nth_error (w_heap w) (fst (g_f g))) as [[l|]|] eqn:E; [|destruct f; [cbn in NZ; lia|discriminate]|destruct f; [cbn in NZ; lia|discriminate]].
  assert (SP : l = firstn (snd (g_f g)) l ++ f ++ rest) by (rewrite <- CE; symmetry; apply firstn_skipn).
  assert (LB : length (firstn (snd (g_f g)) l) = snd (g_f g)).
  { rewrite firstn_length. assert (length (skipn (snd (g_f g)) l) = length (f ++ rest)) by (rewrite CE; reflexivity). rewrite skipn_length, app_length in H. lia. }
  split; [|split].
  - exists (firstn (snd (g_f g)) l), rest. split; [rewrite <- SP; reflexivity|]. split; [exact LB|].
    rewrite put_at_same by (apply (some_lt _ _ _ _ E)). do 2 f_equal. f_equal. f_equal.
    rewrite map_length. rewrite SP at 1. rewrite skipn_app, LB.
    rewrite skipn_all2 by (rewrite LB; lia). rewrite app_nil_l. replace (snd (g_f g) + length f - snd (g_f g))%nat with (length f) by lia.
    rewrite skipn_app, skipn_all, Nat.sub_diag. reflexivity.
  - intros b N. apply put_at_other. congruence.
  - apply put_at_length.
Qed.

(** With the other argument no array changes at all. *)
Theorem C109_preserved : forall w w' d x g it r, stp w (InsertLogT d x g it true) = Ok (w', r) -> w_heap w' = w_heap w.
Proof.
  intros w w' d x g it r H. cbn [step] in H. apply obind_ok in H. destruct H as (o & O & H). apply obind_ok in H. destruct H as (f & F & H).
  apply obind_ok in H. destruct H as ([w1 z] & C & H). cbn [fst snd] in H.
  destruct (insert_table_spec _ _ _ _ _ _ _ _ _ _ _ C) as (c & ok & r1 & i1 & -> & _). destruct z as [z|].
  - apply obind_ok in H. destruct H as (m & M & H). injection H as <- _. reflexivity.
  - injection H as <- _. reflexivity.
Qed.

(** Memory is released by the caller only: deleting functions or distributions releases nothing, and
    no array is written to but by the caller and by the logarithmic calls that are given it. *)
Theorem C109_memory : forall w w' c r b l, stp w c = Ok (w', r) -> nth_error (w_heap w) b = Some (Some l) ->
  (c <> FreeArray b -> exists l', nth_error (w_heap w') b = Some (Some l') /\ length l' = length l) /\
  (~ writes c b -> nth_error (w_heap w') b = Some (Some l)).
Proof.
  intros w w' c r b l H E. split; intro N; [apply (step_live _ _ _ _ _ _ _ _ _ _ _ _ _ H E N)|apply (step_memory _ _ _ _ _ _ _ _ _ _ _ _ _ H N E)].
Qed.

(** Deleting a distribution leaves all functions as they are; deleting a function makes every
    distribution that needs it unusable: here one with a single radius. *)
Theorem C109_delete : forall w w' j o d, stp w (DeleteM j) = Ok (w', RUnit) -> nth_error (w_dists w) d = Some (Some o) ->
  rd_ms o = [j] -> (length (rd_r o) = 1)%nat -> rd_extra o = true -> forall r p xi s, stp w' (EvalD d r p xi s) = UB.
Proof.
  intros w w' j o d H O MS LR X r p xi s. cbn [step] in H. apply obind_ok in H. destruct H as (m & M & H). apply mom_at_ok in M. injection H as <-.
  cbn [step]. unfold dist_at. cbn [w_dists]. rewrite O. cbn [obind w_moms]. unfold rd_eval. rewrite X. unfold rd_at. rewrite LR, MS.
  destruct (rd_r o) as [|a [|? ?]]; try discriminate. cbn [find_nearest]. 
  assert (U : eval_mom val (put_at (w_moms w) j None) j p xi = UB).
  { unfold eval_mom, mom_at. rewrite put_at_same by (apply (some_lt _ _ _ _ M)). reflexivity. }
  replace (find_nearest [a] (r - s)) with (Ok 0%Z) by reflexivity. cbn [obind Nat.eqb dget nth_error]. rewrite U. reflexivity.
Qed.
Theorem C109_delete_distribution : forall w w' d, stp w (DeleteD d) = Ok (w', RUnit) -> w_heap w' = w_heap w /\ w_moms w' = w_moms w /\
  forall e, e <> d -> nth_error (w_dists w') e = nth_error (w_dists w) e.
Proof.
  intros w w' d H. cbn [step] in H. apply obind_ok in H. destruct H as (o & O & H). injection H as <-. cbn [w_heap w_moms w_dists].
  split; [reflexivity|]. split; [reflexivity|]. intros e N. apply put_at_other. congruence.
Qed.

(** Initialising a distribution a second time, with no more radii than it has functions, changes
    the functions it had, and appends as many that are never initialised: evaluating one of those
    is undefined. *)
Theorem C109_reinitialize : forall hist w w' d o rs g it, rn start hist = Ok w -> nth_error (w_dists w) d = Some (Some o) ->
  (length rs <= length (rd_ms o))%nat -> stp w (InitD d rs g it) = Ok (w', RUnit) ->
  exists js, points w' d (rd_ms o ++ js) /\ length js = length rs /\ forall j p xi, In j js -> stp w' (EvalM j p xi) = UB.
Proof.
  intros hist w w' d o rs g it RN O LE H. pose proof (run_sound _ _ _ _ _ _ _ hist start w (start_sound A) RN) as V.
  cbn [step] in H. rewrite (proj2 (dist_at_ok A _ _ _) O) in H. cbn [obind] in H.
  apply obind_ok in H. destruct H as ([[ms' o'] ok] & C & H). cbn [fst snd] in H. destruct ok; [|discriminate]. injection H as <-.
  destruct (init_dist_spec _ _ _ _ _ _ _ _ _ _ _ _ C) as (n & N & LM & JS & _ & _). specialize (N eq_refl). subst n.
  exists (seq (length (w_moms w)) (length rs)). split.
  { exists o'. split; [cbn [w_dists]; apply put_at_same; apply (some_lt _ _ _ _ O)|exact JS]. }
  split; [apply seq_length|]. intros j p xi J. apply in_seq in J.
  unfold init_dist in C.
  destruct (match rs with [] => ([], true) | a :: l => push_radii (match rs with a0 :: b :: _ :: _ => Rleb a0 b | _ => true end) a l end) as [new b] eqn:P.
  destruct b; [|discriminate].
  apply obind_ok in C. destruct C as (lo & LO & C). apply obind_ok in C. destruct C as (hi & HI & C).
  apply obind_ok in C. destruct C as ([[ms1 js1] b] & IA & C). cbn [fst snd] in C. injection C as <- <- ->.
  destruct (init_all_again A gt fit _ _ _ _ (length (w_moms w)) (length (rd_ms o)) _ _ _ _ _ _ IA) as [_ K].
  - lia.
  - intros q x Q E. apply (V d (rd_ms o) x); [exists o; split; [exact O|reflexivity]|]. apply nth_error_In in E. exact E.
  - lia.
  - lia.
  - cbn [step]. unfold eval_mom, mom_at. cbn [w_moms]. rewrite K by lia. reflexivity.
Qed.

(** Initialising a new distribution: it gets new functions, one for each radius, which interpolate
    the tables one after the other.  Of the radii, the first is missing (C55).  Nothing else
    changes. *)
Theorem C109_tables : forall w w' d rs g it p xi fs, nth_error (w_dists w) d = Some (Some rd_new) -> tables w g p xi fs -> length fs = length rs ->
  stp w (InitD d rs g it) = Ok (w', RUnit) ->
  (exists o, nth_error (w_dists w') d = Some (Some o) /\ rd_r o = tl rs /\ rd_ms o = seq (length (w_moms w)) (length rs)) /\
  (forall k f, nth_error fs k = Some f -> interpolates w' (length (w_moms w) + k) (negb (it =? 0)%Z) false false p xi f) /\
  w_heap w' = w_heap w /\ (forall e, e <> d -> nth_error (w_dists w') e = nth_error (w_dists w) e) /\
  (forall j, (j < length (w_moms w))%nat -> nth_error (w_moms w') j = nth_error (w_moms w) j) /\ length (w_moms w') = (length (w_moms w) + length rs)%nat.
Proof.
  intros w w' d rs g it p xi fs O T L H. cbn [step] in H. rewrite (proj2 (dist_at_ok A _ _ _) O) in H. cbn [obind] in H.
  apply obind_ok in H. destruct H as ([[ms' o'] ok] & C & H). cbn [fst snd] in H. destruct ok; [|discriminate]. injection H as <-.
  destruct (init_dist_fresh _ _ _ _ _ _ _ _ _ _ C) as (NE & E1 & E2 & E3 & E4 & E5). cbn [w_heap w_moms w_dists]. split; [|split; [|split; [|split; [|split]]]].
  - exists o'. split; [apply put_at_same; apply (some_lt _ _ _ _ O)|split; assumption].
  - intros k f F. assert (K : (k < length rs)%nat) by (rewrite <- L; apply (some_lt _ _ _ _ F)). destruct (E5 k K) as (m & M1 & M2).
    apply (initialize_interpolates A gt fit (mkWorld (w_heap w) ms' (put_at (w_dists w) d (Some o'))) (length (w_moms w) + k) new_mom m (part g k) it p xi f); [|exact M1|exact M2].
    exact (tables_part A w g p xi fs k f T F).
  - reflexivity.
  - intros e N. apply put_at_other. congruence.
  - exact E4.
  - exact E3.
Qed.

(** It succeeds for radii in ascending order, or three or more in descending order. *)
Theorem C109_initialises : forall w d rs g it p xi fs a b c e, nth_error (w_dists w) d = Some (Some rd_new) -> tables w g p xi fs -> length fs = length rs ->
  rs <> [] -> ascending rs \/ (descending rs /\ (3 <= length rs)%nat) ->
  nth_error p 0 = Some a -> nth_error p (length p - 1) = Some b -> nth_error xi 0 = Some c -> nth_error xi (length xi - 1) = Some e ->
  gt a b = false -> gt c e = false -> fit (negb (it =? 0)%Z) p = true -> fit (negb (it =? 0)%Z) xi = true ->
  exists w', stp w (InitD d rs g it) = Ok (w', RUnit).
Proof.
  intros w d rs g it p xi fs a b c e O T L NE AS P1 P2 X1 X2 G1 G2 F1 F2. destruct rs as [|x rs]; [congruence|].
  assert (M : let asc := match x :: rs with a :: b :: _ :: _ => Rleb a b | _ => true end in monotone asc (x :: rs) = true).
  { cbv zeta. destruct AS as [AS|[DS L3]].
    - assert (M : monotone true (x :: rs) = true) by (apply monotone_spec; exact AS). destruct rs as [|y [|z rs]]; try exact M.
      replace (Rleb x y) with true; [exact M|]. symmetry. unfold Rleb. destruct (Rle_dec x y) as [_|N]; [reflexivity|]. specialize (AS 0%nat 1%nat x y ltac:(lia) eq_refl eq_refl). lra.
    - destruct rs as [|y [|z rs]]; [cbn in L3; lia|cbn in L3; lia|]. replace (Rleb x y) with false.
      + rewrite monotone_down. apply increasing_ok. intros i j u v IJ U V. rewrite nth_error_map in U, V. destruct (nth_error _ i) as [u'|] eqn:U'; [|discriminate]. destruct (nth_error _ j) as [v'|] eqn:V'; [|discriminate].
        injection U as <-. injection V as <-. pose proof (DS i j u' v' IJ U' V'). lra.
      + symmetry. unfold Rleb. destruct (Rle_dec x y) as [H|_]; [|reflexivity]. specialize (DS 0%nat 1%nat x y ltac:(lia) eq_refl eq_refl). lra. }
  cbv zeta in M. cbn [step]. rewrite (proj2 (dist_at_ok A _ _ _) O). cbn [obind]. unfold init_dist. cbv zeta. rewrite (push_all _ _ _ M). cbn [dget nth_error obind].
  unfold dget. destruct (nth_error (x :: rs) (length (x :: rs) - 1)) as [hi|] eqn:HI; [|apply nth_error_None in HI; cbn [length] in HI; lia]. cbn [obind].
  destruct (init_all_do A gt fit (w_heap w) g it (length (x :: rs)) (w_moms w) (rd_ms rd_new) 0 eq_refl) as (ms' & js' & E).
  - intros q Q. destruct (nth_error fs q) as [f|] eqn:F; [|apply nth_error_None in F; lia]. pose proof (tables_part A w g p xi fs q f T F) as C. apply contents_read in C. destruct C as (C1 & C2 & C3).
    eexists. apply (initialize_do A gt fit (w_heap w) new_mom (part g q) it p xi f a b c e C1 C2 C3 P1 P2 X1 X2 G1 G2 F1 F2).
  - rewrite E. cbn [obind fst snd done]. eexists. reflexivity.
Qed.

(** The same logarithmically: the functions are logarithmic, and the tables are overwritten by
    what the functions interpolate. *)
Theorem C109_tables_log : forall w w' d rs g it p xi fs, nth_error (w_dists w) d = Some (Some rd_new) -> tables w g p xi fs -> length fs = length rs ->
  fst (g_p g) <> fst (g_f g) -> fst (g_xi g) <> fst (g_f g) -> stp w (InitLogD d rs g it) = Ok (w', RUnit) ->
  (exists o, nth_error (w_dists w') d = Some (Some o) /\ rd_r o = tl rs /\ rd_ms o = seq (length (w_moms w)) (length rs)) /\
  (forall k f, nth_error fs k = Some f -> interpolates w' (length (w_moms w) + k) (negb (it =? 0)%Z) false true p xi (map slog f)) /\
  tables w' g p xi (map (map slog) fs) /\ (forall b, b <> fst (g_f g) -> nth_error (w_heap w') b = nth_error (w_heap w) b) /\
  (forall e, e <> d -> nth_error (w_dists w') e = nth_error (w_dists w) e) /\
  (forall j, (j < length (w_moms w))%nat -> nth_error (w_moms w') j = nth_error (w_moms w) j) /\ length (w_moms w') = (length (w_moms w) + length rs)%nat.
Proof.
  intros w w' d rs g it p xi fs O T L NP NX H. cbn [step] in H. rewrite (proj2 (dist_at_ok A _ _ _) O) in H. cbn [obind] in H.
  apply obind_ok in H. destruct H as (f0 & F0 & H). apply obind_ok in H. destruct H as ([[ms' o'] ok] & C & H). cbn [fst snd] in H. destruct ok; [|discriminate].
  apply obind_ok in H. destruct H as (ms2 & LA & H). injection H as <-.
  destruct (init_dist_fresh _ _ _ _ _ _ _ _ _ _ C) as (NE & E1 & E2 & E3 & E4 & E5). cbn [w_heap w_moms w_dists].
  assert (FN : firstn (length rs) (rd_ms o') = seq (length (w_moms w)) (length rs)) by (rewrite E2, <- (seq_length (length rs) (length (w_moms w))) at 1; apply firstn_all).
  rewrite FN in LA. destruct (log_all_spec _ _ _ _ LA) as (K0 & K1 & K2).
  assert (F1 : f0 = concat fs).
  { destruct T as (T1 & T2 & T3 & _ & _ & (r & T6)). destruct (read_inv _ _ _ _ _ F0) as (L0 & r0 & R0). rewrite T6 in R0.
    assert (LC : length (concat fs) = length f0).
    { rewrite L0, <- L. clear -T3. induction T3 as [|f fs F _ IH]; [reflexivity|]. cbn [concat length Nat.mul]. rewrite app_length, IH, F. lia. }
    apply (f_equal (firstn (length f0))) in R0. rewrite (firstn_exact _ f0 r0), <- LC, firstn_exact in R0. congruence. }
  subst f0. set (h' := write (w_heap w) (g_f g) (map slog (concat fs))) in *.
  assert (T' : forall ms ds, tables (mkWorld h' ms ds) g p xi (map (map slog) fs)).
  { intros ms0 ds0. destruct T as (T1 & T2 & T3 & (r1 & T4) & (r2 & T5) & (r & T6)). split; [exact T1|]. split; [exact T2|]. split.
    { apply Forall_forall. intros x X. apply in_map_iff in X. destruct X as (y & <- & Y). rewrite map_length. apply (proj1 (Forall_forall _ _) T3 y Y). }
    cbn [w_heap]. assert (OT : forall q, fst q <> fst (g_f g) -> cells h' q = cells (w_heap w) q).
    { intros q N. unfold cells, h'. rewrite write_other by congruence. reflexivity. }
    split; [exists r1; rewrite OT by exact NP; exact T4|]. split; [exists r2; rewrite OT by exact NX; exact T5|].
    exists r. rewrite <- concat_map. unfold cells, h', write in *. destruct (nth_error (w_heap w) (fst (g_f g))) as [[l|]|] eqn:E.
    - rewrite put_at_same by (apply (some_lt _ _ _ _ E)).
      assert (SL : l = firstn (snd (g_f g)) l ++ concat fs ++ r) by (rewrite <- T6; symmetry; apply firstn_skipn).
      destruct (le_lt_dec (snd (g_f g)) (length l)) as [LE|GT].
      + assert (FL : length (firstn (snd (g_f g)) l) = snd (g_f g)) by (apply firstn_length_le; exact LE).
        rewrite skipn_app, FL, Nat.sub_diag, skipn_O, skipn_all2 by (rewrite FL; lia). cbn [app]. f_equal.
        rewrite map_length. rewrite SL at 1. rewrite skipn_app, FL, skipn_all2 by (rewrite FL; lia). cbn [app].
        replace (snd (g_f g) + length (concat fs) - snd (g_f g))%nat with (length (concat fs)) by lia.
        rewrite skipn_app, Nat.sub_diag, skipn_all, skipn_O. reflexivity.
      + rewrite skipn_all2 in T6 by lia. destruct (concat fs); [|discriminate]. cbn [app] in T6. subst r. cbn [map app length].
        rewrite firstn_all2 by lia. rewrite (skipn_all2 l) by lia. rewrite app_nil_r. apply skipn_all2. lia.
    - rewrite E. destruct (concat fs); [|discriminate]. exact T6.
    - rewrite E. destruct (concat fs); [|discriminate]. exact T6. }
  split; [|split; [|split; [|split; [|split; [|split]]]]].
  - exists o'. split; [apply put_at_same; apply (some_lt _ _ _ _ O)|split; assumption].
  - intros k f F. assert (K : (k < length rs)%nat) by (rewrite <- L; apply (some_lt _ _ _ _ F)). destruct (E5 k K) as (m & M1 & M2).
    destruct (K2 (length (w_moms w) + k)%nat) as (m2 & M3 & M4); [apply in_seq; lia|]. rewrite M2 in M3. injection M3 as <-.
    assert (F' : nth_error (map (map slog) fs) k = Some (map slog f)) by (rewrite nth_error_map, F; reflexivity).
    destruct (initialize_interpolates A gt fit (mkWorld h' ms' (put_at (w_dists w) d (Some o'))) (length (w_moms w) + k) new_mom m (part g k) it p xi (map slog f)) as (a & b & c & e & m3 & Q1 & Q2 & Q3 & Q4 & Q5 & Q6).
    { apply (tables_part A (mkWorld h' ms' (put_at (w_dists w) d (Some o'))) g p xi (map (map slog) fs) k (map slog f)); [apply T'|exact F']. }
    { exact M1. } { exact M2. }
    cbn [w_moms] in Q5. rewrite M2 in Q5. injection Q5 as <-. exists a, b, c, e, (set_log true m). repeat (split; [assumption|]).
    unfold view_of in *. cbn [set_log m_range m_spline m_flip m_log]. destruct (m_range m); [|discriminate]. injection Q6 as <- -> -> _. reflexivity.
  - apply T'.
  - intros b N. apply write_other. congruence.
  - intros e N. apply put_at_other. congruence.
  - intros j J. rewrite K1 by (intro W; apply in_seq in W; lia). apply E4. exact J.
  - rewrite K0. exact E3.
Qed.

(** Radii that are neither strictly increasing nor strictly decreasing are answered by an
    exception.  The distribution keeps its functions, but some of the radii have been added to
    those it had; nothing else has changed. *)
Theorem C109_disorder : forall w d o rs g it, nth_error (w_dists w) d = Some (Some o) -> ~ ascending rs -> ~ descending rs ->
  exists w' o' new, stp w (InitD d rs g it) = Ok (w', RThrow) /\ w_heap w' = w_heap w /\ w_moms w' = w_moms w /\
    nth_error (w_dists w') d = Some (Some o') /\ rd_ms o' = rd_ms o /\ rd_r o' = rd_r o ++ new /\ (exists rest, tl rs = new ++ rest) /\
    forall e, e <> d -> nth_error (w_dists w') e = nth_error (w_dists w) e.
Proof.
  intros w d o rs g it O NA ND. destruct rs as [|x rs]; [exfalso; apply NA; intros i j a b _ E; destruct i; discriminate|].
  set (asc := match rs with b :: _ :: _ => Rleb x b | _ => true end).
  assert (A1 : match x :: rs with a :: b :: _ :: _ => Rleb a b | _ => true end = asc) by (unfold asc; destruct rs as [|? [|? ?]]; reflexivity).
  destruct (push_radii asc x rs) as [new ok] eqn:P. destruct ok.
  { exfalso. apply push_ok in P. destruct asc.
    - apply NA. apply monotone_spec. exact P.
    - apply ND. rewrite monotone_down in P. apply increasing_ok in P. intros i j a b IJ U V.
      assert (- a < - b); [|lra]. apply (P i j); [exact IJ| |]; rewrite nth_error_map; [rewrite U|rewrite V]; reflexivity. }
  exists (mkWorld (w_heap w) (w_moms w) (put_at (w_dists w) d (Some (Radial (rd_r o ++ new) (rd_ms o) (rd_lim o) (rd_extra o))))), (Radial (rd_r o ++ new) (rd_ms o) (rd_lim o) (rd_extra o)), new.
  split; [|split; [reflexivity|split; [reflexivity|split; [|split; [reflexivity|split; [reflexivity|split]]]]]].
  - cbn [step]. rewrite (proj2 (dist_at_ok A _ _ _) O). cbn [obind]. unfold init_dist. rewrite A1, P. reflexivity.
  - cbn [w_dists]. apply put_at_same. apply (some_lt _ _ _ _ O).
  - cbn [tl]. apply (push_prefix _ _ _ _ _ P).
  - intros e N. cbn [w_dists]. apply put_at_other. congruence.
Qed.

(** Using something that does not exist (any more) is undefined, and so is copying a function that
    was never initialised, and taking the logarithms of a table that is too short. *)
Theorem C109_gone : forall w c,
  (exists d, uses_dist c d /\ forall o, nth_error (w_dists w) d <> Some (Some o)) \/
  (exists j, uses_mom c j /\ forall m, nth_error (w_moms w) j <> Some (Some m)) -> stp w c = UB.
Proof.
  intros w c [(d & U & N)|(j & U & N)].
  - assert (X : dist_at w d = UB) by (unfold dist_at; destruct (nth_error (w_dists w) d) as [[o|]|]; [destruct (N o eq_refl)|reflexivity|reflexivity]).
    destruct c; cbn [uses_dist] in U; try contradiction; subst; cbn [step]; rewrite X; reflexivity.
  - assert (X : mom_at (w_moms w) j = UB) by (unfold mom_at; destruct (nth_error (w_moms w) j) as [[o|]|]; [destruct (N o eq_refl)|reflexivity|reflexivity]).
    destruct c; cbn [uses_mom] in U; try contradiction; subst; cbn [step]; unfold eval_mom; rewrite X; reflexivity.
Qed.
Theorem C109_clone_new : forall w j m, nth_error (w_moms w) j = Some (Some m) -> m_given m = None -> stp w (CloneM j) = UB.
Proof. intros w j m M G. cbn [step]. rewrite (proj2 (mom_at_ok A _ _ _) M). cbn [obind]. unfold clone_mom. rewrite G. reflexivity. Qed.
Theorem C109_log_short : forall w j m g it, nth_error (w_moms w) j = Some (Some m) -> (length (cells (w_heap w) (g_f g)) < g_np g * g_nxi g)%nat ->
  existsb neg (cells (w_heap w) (g_f g)) = false -> stp w (InitLogM j g it) = UB.
Proof.
  intros w j m g it M L NN. cbn [step]. rewrite (proj2 (mom_at_ok A _ _ _) M). cbn [obind]. unfold initialize_log. rewrite firstn_all2 by lia. rewrite NN.
  rewrite (proj2 (Nat.ltb_lt _ _) L). reflexivity.
Qed.
(** A table with a negative value among the first [np nxi] has no logarithm: the call throws, and
    every array, function and distribution is what it was. *)
Theorem C109_log_negative : forall w j m g it k x, nth_error (w_moms w) j = Some (Some m) ->
  (k < g_np g * g_nxi g)%nat -> nth_error (cells (w_heap w) (g_f g)) k = Some x -> neg x = true ->
  exists w', stp w (InitLogM j g it) = Ok (w', RThrow) /\ w_heap w' = w_heap w /\ w_dists w' = w_dists w /\
    forall i, nth_error (w_moms w') i = nth_error (w_moms w) i.
Proof.
  intros w j m g it k x M K X N. exists (mkWorld (w_heap w) (put_at (w_moms w) j (Some m)) (w_dists w)). split; [|split; [reflexivity|split; [reflexivity|]]].
  - cbn [step]. rewrite (proj2 (mom_at_ok A _ _ _) M). cbn [obind]. unfold initialize_log.
    assert (E : existsb neg (firstn (g_np g * g_nxi g) (cells (w_heap w) (g_f g))) = true).
    { apply existsb_exists. exists x. split; [|exact N]. apply (nth_error_In _ k).
      rewrite <- (firstn_skipn (g_np g * g_nxi g) (cells (w_heap w) (g_f g))) in X. rewrite nth_error_app1 in X; [exact X|].
      apply some_lt in X. rewrite firstn_skipn in X. rewrite firstn_length. lia. }
    rewrite E. reflexivity.
  - intros i. cbn [w_moms]. destruct (Nat.eq_dec i j) as [->|D].
    + rewrite put_at_same by (apply (some_lt _ _ _ _ M)). symmetry. exact M.
    + apply put_at_other. congruence.
Qed.
(** The caller may write an array from beginning to end and free it, as long as it exists;
    everything else is undefined. *)
Theorem C109_arrays : forall w b,
  (forall l l0, nth_error (w_heap w) b = Some (Some l0) -> length l = length l0 ->
     stp w (WriteArray b l) = Ok (mkWorld (put_at (w_heap w) b (Some l)) (w_moms w) (w_dists w), RUnit)) /\
  (forall l l0, nth_error (w_heap w) b = Some (Some l0) -> length l <> length l0 -> stp w (WriteArray b l) = UB) /\
  ((forall l0, nth_error (w_heap w) b <> Some (Some l0)) -> stp w (FreeArray b) = UB /\ forall l, stp w (WriteArray b l) = UB).
Proof.
  intros w b. split; [|split].
  - intros l l0 H L. cbn [step]. rewrite H, (proj2 (Nat.eqb_eq _ _) L). reflexivity.
  - intros l l0 H L. cbn [step]. rewrite H, (proj2 (Nat.eqb_neq _ _) L). reflexivity.
  - intros H. split; [|intros l]; cbn [step]; destruct (nth_error (w_heap w) b) as [[l0|]|]; (congruence || reflexivity || (destruct (H l0); reflexivity)).
Qed.

End C109.
Print Assumptions C109_log_negative.
Print Assumptions C109_arrays.
Print Assumptions C109_values.
Print Assumptions C109_distribution.
Print Assumptions C109_clone.
Print Assumptions C109_clone_same.
Print Assumptions C109_clone_dangling.
Print Assumptions C109_initialize.
Print Assumptions C109_flip.
Print Assumptions C109_copy.
Print Assumptions C109_independent.
Print Assumptions C109_overwritten.
Print Assumptions C109_preserved.
Print Assumptions C109_memory.
Print Assumptions C109_delete.
Print Assumptions C109_delete_distribution.
Print Assumptions C109_reinitialize.
Print Assumptions C109_initialises.
Print Assumptions C109_tables.
Print Assumptions C109_tables_log.
Print Assumptions C109_disorder.
Print Assumptions C109_gone.
Print Assumptions C109_clone_new.
Print Assumptions C109_log_short.

(** * What does not hold *)
Lemma rlt_t : forall x y, x < y -> Rltb x y = true.
Proof. intros x y H. unfold Rltb. destruct (Rlt_dec x y); [reflexivity|lra]. Qed.
Lemma rlt_f : forall x y, y <= x -> Rltb x y = false.
Proof. intros x y H. unfold Rltb. destruct (Rlt_dec x y); [lra|reflexivity]. Qed.
Lemma rle_t : forall x y, x <= y -> Rleb x y = true.
Proof. intros x y H. unfold Rleb. destruct (Rle_dec x y); [reflexivity|lra]. Qed.
Lemma rle_f : forall x y, y < x -> Rleb x y = false.
Proof. intros x y H. unfold Rleb. destruct (Rle_dec x y); [lra|reflexivity]. Qed.

Lemma unit_fit : grid_usable false [0; 1] = true.
Proof. unfold grid_usable. cbn [length Nat.leb monotone andb]. rewrite rle_f by lra. reflexivity. Qed.

Ltac go := cbn [run step app unit_arrays start w_heap w_moms w_dists obind fst snd mom_at nth_error length put_at done dist_at Nat.eqb].

Section Real.
Variable val : view R -> R -> R -> outcome (option R).
Hypothesis FL : flat val.
Notation stp := (step rgt grid_usable rneg ln ln val).
Notation rn := (run rgt grid_usable rneg ln ln val).

(** The function of the unit table as it is after initialisation. *)
Definition unit_mom (fl lg : bool) (y : R) : mom R :=
  mkMom (Some unit_table) (Some (0, 1, 0, 1)) (Some (false, [0; 1], [0; 1], [y; y; y; y])) fl lg false.
Lemma unit_init : forall y fl lg (h : heap R) (m : mom R), m_flip m = fl -> m_log m = lg -> nth_error h 0 = Some (Some [0; 1]) -> nth_error h 1 = Some (Some [y; y; y; y]) ->
  initialize rgt grid_usable h m unit_table 0 = Ok (unit_mom fl lg y, true).
Proof.
  intros y fl lg h m F L H0 H1. rewrite (initialize_do R rgt grid_usable h m unit_table 0 [0; 1] [0; 1] [y; y; y; y] 0 1 0 1); try reflexivity.
  - rewrite F, L. reflexivity.
  - unfold read, cells. cbn [unit_table g_p fst snd g_np]. rewrite H0. reflexivity.
  - unfold read, cells. cbn [unit_table g_xi fst snd g_nxi]. rewrite H0. reflexivity.
  - unfold read, cells. cbn [unit_table g_f fst snd g_nxi g_np]. rewrite H1. reflexivity.
  - unfold rgt. apply rlt_f. lra.
  - unfold rgt. apply rlt_f. lra.
  - apply unit_fit.
  - apply unit_fit.
Qed.
Lemma unit_eval : forall y fl lg ms j, nth_error ms j = Some (Some (unit_mom fl lg y)) ->
  eval_mom val ms j (1 / 2) (1 / 2) = Ok (Some (if fl then 0 else if lg then exp y else y)).
Proof.
  intros y fl lg ms j E. unfold eval_mom. rewrite (proj2 (mom_at_ok R _ _ _) E). cbn [obind view_of unit_mom m_range m_spline m_flip m_log].
  rewrite (FL 0 1 0 1 false [0; 1] [0; 1] y 3%nat fl lg). rewrite (rle_t 0 (1 / 2)), (rle_t (1 / 2) 1) by lra. cbn [andb]. destruct fl.
  - rewrite (rle_f 0 (- (1 / 2))) by lra. reflexivity.
  - rewrite (rle_t 0 (1 / 2)), (rle_t (1 / 2) 1) by lra. reflexivity.
Qed.

(** A copy of a function that is not logarithmic does not have the values of the function: the
    array may have been written to since. *)
Theorem C109_clone_changed_refuted : ~ (forall hist w w' j k p xi y z, rn start hist = Ok w ->
  Forall (fun c => match c with InitLogM _ _ _ | SetLogM _ _ | InitLogD _ _ _ _ | InsertLogT _ _ _ _ _ => False | _ => True end) hist ->
  stp w (CloneM j) = Ok (w', RMom k) -> stp w' (EvalM j p xi) = Ok (w', RVal (Some y)) -> stp w' (EvalM k p xi) = Ok (w', RVal (Some z)) -> y = z).
Proof.
  intro Q. specialize (Q (unit_arrays 1 ++ [NewM; InitM 0 unit_table 0; WriteArray 1 [2; 2; 2; 2]])
    (mkWorld [Some [0; 1]; Some [2; 2; 2; 2]] [Some (unit_mom false false 1)] [])
    (mkWorld [Some [0; 1]; Some [2; 2; 2; 2]] [Some (unit_mom false false 1); Some (unit_mom false false 2)] [])
    0%nat 1%nat (1 / 2) (1 / 2) 1 2).
  assert (1 = 2); [|lra]. apply Q.
  - go. rewrite (unit_init 1 false false) by reflexivity. go. reflexivity.
  - unfold unit_arrays. cbn [app]. repeat constructor.
  - go. unfold clone_mom. cbn [unit_mom m_given m_cubic m_flip]. rewrite (unit_init 2 false false) by reflexivity. reflexivity.
  - apply eval_m. apply (unit_eval 1 false false). reflexivity.
  - apply eval_m. apply (unit_eval 2 false false). reflexivity.
Qed.

(** Nor does a copy of a logarithmic function, even if no array was ever written to or released. *)
Theorem C109_clone_log_refuted : ~ (forall hist w w' j k p xi y z, rn start hist = Ok w ->
  Forall (fun c => match c with WriteArray _ _ | FreeArray _ | InitLogD _ _ _ _ | InsertLogT _ _ _ _ _ => False | _ => True end) hist ->
  stp w (CloneM j) = Ok (w', RMom k) -> stp w' (EvalM j p xi) = Ok (w', RVal (Some y)) -> stp w' (EvalM k p xi) = Ok (w', RVal (Some z)) -> y = z).
Proof.
  intro Q. specialize (Q (unit_arrays 1 ++ [NewM; InitM 0 unit_table 0; SetLogM 0 true])
    (mkWorld [Some [0; 1]; Some [1; 1; 1; 1]] [Some (unit_mom false true 1)] [])
    (mkWorld [Some [0; 1]; Some [1; 1; 1; 1]] [Some (unit_mom false true 1); Some (unit_mom false false 1)] [])
    0%nat 1%nat (1 / 2) (1 / 2) (exp 1) 1).
  assert (exp 1 = 1); [|pose proof (exp_ineq1 1); lra]. apply Q.
  - go. rewrite (unit_init 1 false false) by reflexivity. go. reflexivity.
  - unfold unit_arrays. cbn [app]. repeat constructor.
  - go. unfold clone_mom. cbn [unit_mom m_given m_cubic m_flip]. rewrite (unit_init 1 false false) by reflexivity. reflexivity.
  - apply eval_m. apply (unit_eval 1 false true). reflexivity.
  - apply eval_m. apply (unit_eval 1 false false). reflexivity.
Qed.

(** Two functions initialised from the same arrays with the same method, one right after the other,
    need not have the same values. *)
Theorem C109_initialize_refuted : ~ (forall hist w w1 w2 i j g it p xi y z, rn start hist = Ok w ->
  stp w (InitM i g it) = Ok (w1, RUnit) -> stp w1 (InitM j g it) = Ok (w2, RUnit) ->
  stp w2 (EvalM i p xi) = Ok (w2, RVal (Some y)) -> stp w2 (EvalM j p xi) = Ok (w2, RVal (Some z)) -> y = z).
Proof.
  intro Q.
  specialize (Q (unit_arrays 1 ++ [NewM; NewM; SetLogM 0 true]) 
    (mkWorld [Some [0; 1]; Some [1; 1; 1; 1]] [Some (set_log true new_mom); Some new_mom] [])
    (mkWorld [Some [0; 1]; Some [1; 1; 1; 1]] [Some (unit_mom false true 1); Some new_mom] [])
    (mkWorld [Some [0; 1]; Some [1; 1; 1; 1]] [Some (unit_mom false true 1); Some (unit_mom false false 1)] [])
    0%nat 1%nat unit_table 0%Z (1 / 2) (1 / 2) (exp 1) 1).
  assert (exp 1 = 1); [|pose proof (exp_ineq1 1); lra]. apply Q.
  - go. reflexivity.
  - go. rewrite (unit_init 1 false true) by reflexivity. reflexivity.
  - go. rewrite (unit_init 1 false false) by reflexivity. reflexivity.
  - apply eval_m. apply (unit_eval 1 false true). reflexivity.
  - apply eval_m. apply (unit_eval 1 false false). reflexivity.
Qed.

(** The distribution with one function, at radius 1. *)
Definition unit_dist (j : nat) : radial nat := Radial [1] [j] (Some (1, 1)) true.
Lemma unit_insert : forall j, rd_insert rd_new 1 j = Ok (unit_dist j, 0%Z).
Proof. intro j. reflexivity. Qed.
Lemma unit_dist_eval : forall w d j y, nth_error (w_dists w) d = Some (Some (unit_dist j)) -> eval_mom val (w_moms w) j (1 / 2) (1 / 2) = Ok (Some y) ->
  stp w (EvalD d 1 (1 / 2) (1 / 2) 0) = Ok (w, RVal (Some y)).
Proof.
  intros w d j y E V. apply eval_d. exists (unit_dist j). split; [exact E|]. unfold rd_eval, unit_dist. cbn [rd_extra]. unfold rd_at. cbn [rd_r rd_ms length].
  replace (find_nearest [1] (1 - 0)) with (Ok 0%Z) by reflexivity. cbn [obind Nat.eqb dget nth_error]. rewrite V. cbn [obind]. unfold line, olift, ediv.
  destruct (Req_EM_T (0 - (1 - 0)) 0) as [W|W]; [lra|]. do 2 f_equal. field.
Qed.

(** Flipping one distribution can change the values of another. *)
Theorem C109_flip_refuted : ~ (forall hist w w' d e v r p xi s y z, rn start hist = Ok w -> d <> e -> stp w (FlipD d v) = Ok (w', RUnit) ->
  stp w (EvalD e r p xi s) = Ok (w, RVal (Some y)) -> stp w' (EvalD e r p xi s) = Ok (w', RVal (Some z)) -> y = z).
Proof.
  intro Q. specialize (Q (unit_arrays 1 ++ [NewM; InitM 0 unit_table 0; NewD; NewD; InsertM 0 1 0; InsertM 1 1 0])
    (mkWorld [Some [0; 1]; Some [1; 1; 1; 1]] [Some (unit_mom false false 1)] [Some (unit_dist 0); Some (unit_dist 0)])
    (mkWorld [Some [0; 1]; Some [1; 1; 1; 1]] [Some (unit_mom true false 1)] [Some (unit_dist 0); Some (unit_dist 0)])
    0%nat 1%nat true 1 (1 / 2) (1 / 2) 0 1 0).
  assert (1 = 0); [|lra]. apply Q.
  - go. rewrite (unit_init 1 false false) by reflexivity. go. rewrite !unit_insert. go. reflexivity.
  - discriminate.
  - reflexivity.
  - apply (unit_dist_eval _ _ 0%nat); [reflexivity|]. apply (unit_eval 1 false false). reflexivity.
  - apply (unit_dist_eval _ _ 0%nat); [reflexivity|]. apply (unit_eval 1 true false). reflexivity.
Qed.

(** A table inserted logarithmically into two distributions, one right after the other with the
    default argument, does not give them the same values: the second gets the logarithms of the
    logarithms. *)
Theorem C109_twice_refuted : ~ (forall hist w w1 w2 d e r g it i1 i2 p xi y z, rn start hist = Ok w -> 
  nth_error (w_dists w) d = Some (Some rd_new) -> nth_error (w_dists w) e = Some (Some rd_new) -> d <> e ->
  stp w (InsertLogT d r g it false) = Ok (w1, RIndex i1) -> stp w1 (InsertLogT e r g it false) = Ok (w2, RIndex i2) ->
  stp w2 (EvalD d r p xi 0) = Ok (w2, RVal (Some y)) -> stp w2 (EvalD e r p xi 0) = Ok (w2, RVal (Some z)) -> y = z).
Proof.
  intro Q. set (l := ln 2). set (ll := ln l).
  assert (L0 : 0 < l) by (unfold l; rewrite <- ln_1; apply ln_increasing; lra).
  assert (L1 : l < 2).
  { unfold l. rewrite <- (ln_exp 2) at 2. apply ln_increasing; [lra|]. pose proof (exp_ineq1 2). lra. }
  specialize (Q (unit_arrays 2 ++ [NewD; NewD])
    (mkWorld [Some [0; 1]; Some [2; 2; 2; 2]] [] [Some rd_new; Some rd_new])
    (mkWorld [Some [0; 1]; Some [l; l; l; l]] [Some (unit_mom false true l)] [Some (unit_dist 0); Some rd_new])
    (mkWorld [Some [0; 1]; Some [ll; ll; ll; ll]] [Some (unit_mom false true l); Some (unit_mom false true ll)] [Some (unit_dist 0); Some (unit_dist 1)])
    0%nat 1%nat 1 unit_table 0%Z 0%Z 0%Z (1 / 2) (1 / 2) 2 l).
  assert (2 = l); [|lra]. apply Q.
  - reflexivity.
  - reflexivity.
  - reflexivity.
  - discriminate.
  - go. unfold read, cells, write. cbn [unit_table g_f g_np g_nxi]. go. cbn [Nat.mul Nat.add Nat.ltb Nat.leb skipn firstn length app map obind].
    unfold insert_table. go. rewrite unit_insert. go. fold unit_table. rewrite (unit_init l false false) by reflexivity. reflexivity.
  - go. unfold read, cells, write. cbn [unit_table g_f g_np g_nxi]. go. cbn [Nat.mul Nat.add Nat.ltb Nat.leb skipn firstn length app map obind].
    unfold insert_table. go. rewrite unit_insert. go. fold unit_table. rewrite (unit_init ll false false) by reflexivity. reflexivity.
  - apply (unit_dist_eval _ _ 0%nat); [reflexivity|]. cbn [w_moms]. rewrite (unit_eval l false true _ 0%nat) by reflexivity. unfold l. rewrite exp_ln by lra. reflexivity.
  - apply (unit_dist_eval _ _ 1%nat); [reflexivity|]. cbn [w_moms]. rewrite (unit_eval ll false true _ 1%nat) by reflexivity. unfold ll. rewrite exp_ln by exact L0. reflexivity.
Qed.

End Real.
Print Assumptions C109_clone_changed_refuted.
Print Assumptions C109_clone_log_refuted.
Print Assumptions C109_initialize_refuted.
Print Assumptions C109_flip_refuted.
Print Assumptions C109_twice_refuted.

(** An interpolation as required above exists; and a history in which a function shared by two
    distributions is kept while its arrays are released, and one is copied before that. *)
Example C109_example : exists val, flat val /\
  let stp := step rgt grid_usable rneg ln ln val in let rn := run rgt grid_usable rneg ln ln val in
  let hist := unit_arrays 1 ++ [NewM; InitM 0 unit_table 0; NewD; NewD; InsertM 0 1 0; InsertM 1 1 0; CloneD 1] in
  exists w w', rn start hist = Ok w /\ rn w [FlipD 2 true; FreeArray 0; FreeArray 1; DeleteD 0] = Ok w' /\
    never rgt grid_usable rneg ln ln val (fun w c => changes c 1 \/ exists js j, points w 1 js /\ In j js /\ touches w c j) w [FlipD 2 true; FreeArray 0; FreeArray 1; DeleteD 0] /\
    stp w' (EvalD 1 1 (1 / 2) (1 / 2) 0) = Ok (w', RVal (Some 1)) /\ stp w' (EvalD 2 1 (1 / 2) (1 / 2) 0) = Ok (w', RVal (Some 0)) /\ stp w' (CloneM 0) = UB.
Proof.
  set (val := fun (v : view R) (p xi : R) => match v_spline v with
    | Some (_, _, _, y :: _) => match v_range v with (a, b, c, d) =>
        Ok (Some (if (Rleb a p && Rleb p b && Rleb c (if v_flip v then - xi else xi) && Rleb (if v_flip v then - xi else xi) d)%bool then if v_log v then exp y else y else 0)) end
    | _ => UB end).
  exists val. assert (FL : flat val) by (intros a b c d cubic ps xis y n fl lg p xi; reflexivity). split; [exact FL|]. cbv zeta.
  set (h := [Some [0; 1]; Some [1; 1; 1; 1]]).
  exists (mkWorld h [Some (unit_mom false false 1); Some (unit_mom false false 1)] [Some (unit_dist 0); Some (unit_dist 0); Some (unit_dist 1)]).
  exists (mkWorld [None; None] [Some (unit_mom false false 1); Some (unit_mom true false 1)] [None; Some (unit_dist 0); Some (unit_dist 1)]).
  split.
  { go. rewrite (unit_init 1 false false) by reflexivity. go. rewrite unit_insert. go. rewrite unit_insert. go. cbn [unit_dist rd_r rd_ms clone_all]. unfold dget. go.
    unfold clone_mom. cbn [unit_mom m_given m_cubic m_flip]. rewrite (unit_init 1 false false) by reflexivity. cbn [obind fst snd]. rewrite unit_insert. reflexivity. }
  split; [reflexivity|]. split.
  { assert (P : forall (w : world R) d js, points w d js -> forall o, nth_error (w_dists w) d = Some (Some o) -> js = rd_ms o).
    { intros w d js (o1 & O1 & <-) o O. rewrite O in O1. injection O1 as ->. reflexivity. }
    split; [|cbn [step]; go; split; [|go; split; [|go; split; [|exact I]]]].
    - intros [[]|(js & j & P1 & J & (js' & P2 & J'))]. rewrite (P _ _ _ P1 (unit_dist 0) eq_refl) in J. rewrite (P _ _ _ P2 (unit_dist 1) eq_refl) in J'.
      cbn in J, J'. lia.
    - intros [[]|(js & j & P1 & J & [])].
    - intros [[]|(js & j & P1 & J & [])].
    - intros [C|(js & j & P1 & J & [])]. discriminate C. }
  split; [apply (unit_dist_eval val) with (j := 0%nat); [reflexivity|]; apply (unit_eval val FL 1 false false); reflexivity|].
  split; [apply (unit_dist_eval val) with (j := 1%nat); [reflexivity|]; apply (unit_eval val FL 1 true false); reflexivity|].
  reflexivity.
Qed.

(** Two tables in one array, for two radii. *)
Example C109_tables_example : forall val,
  let w := mkWorld [Some [0; 1]; Some ([1; 1; 1; 1] ++ [2; 2; 2; 2])] [] [Some rd_new] in
  run rgt grid_usable rneg ln ln val start [NewArray [0; 1]; NewArray [1; 1; 1; 1; 2; 2; 2; 2]; NewD] = Ok w /\
  tables w unit_table [0; 1] [0; 1] [[1; 1; 1; 1]; [2; 2; 2; 2]] /\
  exists w', step rgt grid_usable rneg ln ln val w (InitD 0 [1; 2] unit_table 0) = Ok (w', RUnit).
Proof.
  intros val w. split; [reflexivity|]. split.
  { split; [reflexivity|]. split; [reflexivity|]. split; [repeat constructor|]. split; [exists []; reflexivity|]. split; [exists []; reflexivity|]. exists []. reflexivity. }
  eexists. unfold step, dist_at, init_dist, w. cbn [w_dists nth_error obind w_heap w_moms length init_dist push_radii Nat.sub dget].
  rewrite (rle_f 2 1) by lra. cbn [rd_new rd_r rd_ms rd_lim rd_extra init_all app nth_error length dget obind mom_at].
  rewrite (initialize_do R rgt grid_usable _ new_mom (part unit_table 0) 0 [0; 1] [0; 1] [1; 1; 1; 1] 0 1 0 1); try reflexivity; try apply unit_fit; try (unfold rgt; apply rlt_f; lra).
  cbn [obind fst snd put_at nth_error app length mom_at].
  rewrite (initialize_do R rgt grid_usable _ new_mom (part unit_table 1) 0 [0; 1] [0; 1] [2; 2; 2; 2] 0 1 0 1); try reflexivity; try apply unit_fit; try (unfold rgt; apply rlt_f; lra).
Qed.
