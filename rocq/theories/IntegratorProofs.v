(** Proofs about the integrator model: storage, step size control, trajectories. *)
From Coq Require Import ZArith Reals Lra Lia.
From Verif Require Import Base AlgebraModel IntegratorModel IntegratorSpec.
Local Open Scope Z_scope.

(** * Memory blocks *)
Definition holds (b : block) (off : Z) (n : nat) (v : vec) : Prop :=
  0 <= off /\ off + Z.of_nat n <= b_size b /\ forall j, (j < n)%nat -> b_cell b (off + Z.of_nat j) = Some (v j).

Lemma bread_holds : forall b off n v j, holds b off n v -> (j < n)%nat -> bread b (off + Z.of_nat j) = Ok (v j).
Proof.
  intros b off n v j (H0 & H1 & H2) Hj. unfold bread.
  replace ((0 <=? off + Z.of_nat j) && (off + Z.of_nat j <? b_size b))%bool with true.
  2: { symmetry. apply andb_true_iff. split; [apply Z.leb_le|apply Z.ltb_lt]; lia. }
  rewrite H2 by exact Hj. reflexivity.
Qed.

Lemma bread_holds1 : forall b i x, holds b i 1 (fun _ => x) -> bread b i = Ok x.
Proof.
  intros b i x H. replace i with (i + Z.of_nat 0) by lia. rewrite (bread_holds b i 1 (fun _ => x) 0 H); [reflexivity|lia].
Qed.

Lemma bwrite_ok : forall b i x, 0 <= i < b_size b ->
  bwrite b i x = Ok (Block (b_size b) (fun j => if j =? i then Some x else b_cell b j)).
Proof.
  intros b i x H. unfold bwrite.
  replace ((0 <=? i) && (i <? b_size b))%bool with true; [reflexivity|].
  symmetry. apply andb_true_iff. split; [apply Z.leb_le|apply Z.ltb_lt]; lia.
Qed.

Lemma holds_realloc : forall b size off n v, b_size b <= size -> holds b off n v -> holds (realloc b size) off n v.
Proof.
  intros b size off n v Hs (H0 & H1 & H2). unfold holds, realloc; cbn [b_size b_cell].
  split; [exact H0|split; [lia|]]. intros j Hj.
  replace (off + Z.of_nat j <? b_size b) with true by (symmetry; apply Z.ltb_lt; lia). apply H2; exact Hj.
Qed.

Lemma write_vec_spec : forall n b off v, 0 <= off -> off + Z.of_nat n <= b_size b ->
  exists b', write_vec n b off v = Ok b' /\ b_size b' = b_size b /\ holds b' off n v /\
    (forall i, i < off \/ off + Z.of_nat n <= i -> b_cell b' i = b_cell b i).
Proof.
  induction n as [|n IH]; intros b off v H0 H1.
  - exists b. cbn [write_vec]. split; [reflexivity|split; [reflexivity|split]].
    + split; [exact H0|split; [lia|]]. intros j Hj; lia.
    + intros; reflexivity.
  - destruct (IH b off v H0 ltac:(lia)) as (b1 & E1 & S1 & (Ha & Hb & Hc) & O1).
    cbn [write_vec]. rewrite E1. cbn [obind]. rewrite bwrite_ok by lia.
    eexists. split; [reflexivity|]. cbn [b_size b_cell].
    split; [lia|split].
    + split; [exact H0|split; [cbn [b_size]; lia|]]. cbn [b_cell]. intros j Hj.
      destruct (Z.eqb_spec (off + Z.of_nat j) (off + Z.of_nat n)) as [E|E].
      * replace j with n by lia. reflexivity.
      * apply Hc. lia.
    + intros i Hi. destruct (Z.eqb_spec i (off + Z.of_nat n)) as [E|E]; [lia|]. apply O1. lia.
Qed.

Lemma holds_frame : forall b b' off n off' m w, b_size b' = b_size b ->
  (forall i, i < off \/ off + Z.of_nat n <= i -> b_cell b' i = b_cell b i) ->
  off' + Z.of_nat m <= off \/ off + Z.of_nat n <= off' -> holds b off' m w -> holds b' off' m w.
Proof.
  intros b b' off n off' m w Hs Hf Hd (H0 & H1 & H2). split; [exact H0|split; [lia|]].
  intros j Hj. rewrite Hf by lia. apply H2; exact Hj.
Qed.

Lemma holds_ext : forall b off n v w, (forall j, (j < n)%nat -> v j = w j) -> holds b off n v -> holds b off n w.
Proof.
  intros b off n v w He (H0 & H1 & H2). split; [exact H0|split; [exact H1|]].
  intros j Hj. rewrite H2 by exact Hj. rewrite He by exact Hj. reflexivity.
Qed.

Lemma read_vec_spec : forall n b off v w, holds b off n w ->
  exists v', read_vec n b off v = Ok v' /\ (forall j, (j < n)%nat -> v' j = w j).
Proof.
  induction n as [|n IH]; intros b off v w H.
  - exists v. split; [reflexivity|]. intros j Hj; lia.
  - assert (H' : holds b off n w).
    { destruct H as (H0 & H1 & H2). split; [exact H0|split; [lia|]]. intros j Hj. apply H2. lia. }
    destruct (IH b off v w H') as (v1 & E1 & Hv1). cbn [read_vec]. rewrite E1. cbn [obind].
    rewrite (bread_holds b off (S n) w n H) by lia. cbn [obind].
    eexists. split; [reflexivity|]. intros j Hj. unfold upd. destruct (Nat.eqb_spec j n) as [E|E].
    + subst. reflexivity.
    + apply Hv1. lia.
Qed.

Lemma w32_small : forall z, 0 <= z < 2 ^ 32 -> w32 z = z.
Proof. intros z H. unfold w32. apply Z.mod_small. exact H. Qed.

(** * Storage *)
Section Storage.
Variable N : nat.
Hypothesis HN : (1 <= N)%nat.
Let NZ := Z.of_nat N.

Record sinv (P : Z) (st : storage) (l : list point) : Prop := SInv
  { sv_time : b_size (s_time st) = s_alloc st;
    sv_sol : b_size (s_sol st) = Z.of_nat N * s_alloc st;
    sv_der : b_size (s_der st) = Z.of_nat N * s_alloc st;
    sv_alloc : 0 <= s_alloc st <= P + 1000;
    sv_n : s_n st = Z.of_nat (length l);
    sv_le : s_n st <= s_alloc st;
    sv_pts : forall i t y yp, nth_error l i = Some (t, y, yp) ->
      holds (s_time st) (Z.of_nat i) 1 (fun _ => t) /\
      holds (s_sol st) (Z.of_nat i * Z.of_nat N) N y /\ holds (s_der st) (Z.of_nat i * Z.of_nat N) N yp }.

Lemma sinv_new : forall P, 0 <= P -> sinv P new_storage [].
Proof.
  intros P HP. constructor; cbn; try lia. intros i t y yp H. destruct i; discriminate H.
Qed.

Lemma sinv_reset : forall P st l, sinv P st l ->
  sinv P (Storage (s_time st) (s_sol st) (s_der st) 0 (s_alloc st)) [].
Proof.
  intros P st l H. destruct H. constructor; cbn [s_time s_sol s_der s_n s_alloc length]; try assumption; try lia.
  intros i t y yp E. destruct i; discriminate E.
Qed.

Lemma nth_error_snoc : forall {A} (l : list A) x i y, nth_error (l ++ [x]) i = Some y ->
  (nth_error l i = Some y) \/ (i = length l /\ y = x).
Proof.
  intros A l x i y H. destruct (Nat.lt_ge_cases i (length l)) as [Hi|Hi].
  - left. rewrite nth_error_app1 in H by exact Hi. exact H.
  - right. rewrite nth_error_app2 in H by exact Hi.
    destruct (i - length l)%nat as [|k] eqn:E.
    + cbn in H. injection H as H. subst. split; [lia|reflexivity].
    + cbn in H. destruct k; discriminate H.
Qed.

Lemma store_solution_inv : forall P st l t y yp, Z.of_nat N * (P + 1000) < 2 ^ 32 ->
  sinv P st l -> Z.of_nat (length l) < P ->
  exists st', store_solution N st t y yp = Ok st' /\ sinv P st' (l ++ [(t, y, yp)]) /\ s_alloc st <= s_alloc st'.
Proof.
  intros P st l t y yp HB I Hl.
  assert (HN' : 1 <= Z.of_nat N) by lia.
  pose proof (Zle_0_nat (length l)) as Hl0.
  assert (HP : P + 1000 < 2 ^ 32) by nia.
  unfold store_solution.
  set (st1 := if s_alloc st <=? s_n st then _ else st).
  assert (I1 : sinv P st1 l /\ s_n st1 < s_alloc st1 /\ s_alloc st <= s_alloc st1).
  { unfold st1. destruct (Z.leb_spec (s_alloc st) (s_n st)) as [Hle|Hgt].
    - pose proof (sv_n _ _ _ I) as En. pose proof (sv_alloc _ _ _ I) as Ha. pose proof (sv_le _ _ _ I) as Hle'.
      assert (Ew : w32 (s_alloc st + 1000) = s_alloc st + 1000) by (apply w32_small; lia).
      rewrite Ew.
      split; [|cbn [s_n s_alloc]; lia].
      destruct I as [I1 I2 I3 I4 I5 I6 I7].
      constructor; cbn [s_time s_sol s_der s_n s_alloc realloc b_size]; try lia.
      intros i t0 y0 yp0 E. destruct (I7 i t0 y0 yp0 E) as (A1 & A2 & A3).
      split; [apply holds_realloc; [lia|exact A1]|].
      split; (apply holds_realloc; [nia|assumption]).
    - split; [exact I|]. lia. }
  clearbody st1. destruct I1 as (I1 & Hn1 & Hal). clear I. destruct I1 as [I1 I2 I3 I4 I5 I6 I7].
  rewrite I5 in *.
  rewrite bwrite_ok by lia. cbn [obind].
  assert (Ew : w32 (Z.of_nat (length l) * Z.of_nat N) = Z.of_nat (length l) * Z.of_nat N)
    by (apply w32_small; nia).
  rewrite Ew.
  destruct (write_vec_spec N (s_sol st1) (Z.of_nat (length l) * Z.of_nat N) y) as (so & Eso & Sso & Hso & Fso); [nia|nia|].
  destruct (write_vec_spec N (s_der st1) (Z.of_nat (length l) * Z.of_nat N) yp) as (de & Ede & Sde & Hde & Fde); [nia|nia|].
  rewrite Eso. cbn [obind]. rewrite Ede. cbn [obind].
  eexists. split; [reflexivity|]. split; [|cbn [s_alloc]; lia].
  assert (Ew2 : w32 (Z.of_nat (length l) + 1) = Z.of_nat (length l) + 1) by (apply w32_small; lia).
  constructor; cbn [s_time s_sol s_der s_n s_alloc b_size]; rewrite ?Ew2, ?app_length; cbn [length]; try lia.
  intros i t0 y0 yp0 E. apply nth_error_snoc in E. destruct E as [E|(Ei & E)].
  - assert (Hi : (i < length l)%nat) by (apply nth_error_Some; congruence).
    destruct (I7 i t0 y0 yp0 E) as (A1 & A2 & A3). split; [|split].
    + destruct A1 as (B0 & B1 & B2). split; [exact B0|split; [cbn [b_size]; lia|]]. cbn [b_cell].
      intros j Hj. replace (_ =? _) with false by (symmetry; apply Z.eqb_neq; lia). apply B2; exact Hj.
    + eapply holds_frame; [exact Sso|exact Fso| |exact A2]. left. nia.
    + eapply holds_frame; [exact Sde|exact Fde| |exact A3]. left. nia.
  - injection E as E1 E2 E3. subst t0 y0 yp0 i. split; [|split; assumption].
    split; [lia|split; [cbn [b_size]; lia|]]. cbn [b_cell]. intros j Hj.
    replace (_ =? _) with true by (symmetry; apply Z.eqb_eq; lia). reflexivity.
Qed.

Lemma sinv_represents : forall P st l, Z.of_nat N * (P + 1000) < 2 ^ 32 -> sinv P st l -> represents N st l.
Proof.
  intros P st l HB I. split; [exact (sv_n _ _ _ I)|].
  intros i t y yp E. assert (Hi : (i < length l)%nat) by (apply nth_error_Some; congruence).
  destruct (sv_pts _ _ _ I i t y yp E) as (A1 & A2 & A3).
  pose proof (sv_le _ _ _ I). pose proof (sv_n _ _ _ I). pose proof (sv_alloc _ _ _ I).
  assert (Hi2 : Z.of_nat i <= P + 1000) by lia.
  assert (Ew : w32 (Z.of_nat i * Z.of_nat N) = Z.of_nat i * Z.of_nat N).
  { apply w32_small. split; [nia|]. apply Z.le_lt_trans with (Z.of_nat N * (P + 1000)); [rewrite Z.mul_comm; apply Z.mul_le_mono_nonneg_l; [lia|exact Hi2]|exact HB]. }
  split; [apply bread_holds1; exact A1|].
  intros j Hj. unfold solution_at, derivative_at. rewrite Ew. split; eapply bread_holds; eassumption.
Qed.

Lemma last_reads : forall P st l t y yp v, Z.of_nat N * (P + 1000) < 2 ^ 32 -> sinv P st (l ++ [(t, y, yp)]) ->
  last_time st = Ok t /\
  (exists v', last_solution N st v = Ok v' /\ forall j, (j < N)%nat -> v' j = y j) /\
  (exists v', last_derivative N st v = Ok v' /\ forall j, (j < N)%nat -> v' j = yp j).
Proof.
  intros P st l t y yp v HB I.
  pose proof (sv_n _ _ _ I) as En. rewrite app_length in En. cbn [length] in En.
  pose proof (sv_le _ _ _ I). pose proof (sv_alloc _ _ _ I).
  destruct (sv_pts _ _ _ I (length l) t y yp) as (A1 & A2 & A3).
  { rewrite nth_error_app2 by lia. rewrite Nat.sub_diag. reflexivity. }
  unfold last_time, last_solution, last_derivative.
  replace (s_n st <=? 0) with false by (symmetry; apply Z.leb_gt; lia).
  replace (s_n st - 1) with (Z.of_nat (length l)) by lia.
  assert (Hi2 : Z.of_nat (length l) <= P + 1000) by lia.
  assert (Ew : w32 (Z.of_nat (length l) * Z.of_nat N) = Z.of_nat (length l) * Z.of_nat N).
  { apply w32_small. split; [nia|]. apply Z.le_lt_trans with (Z.of_nat N * (P + 1000)); [rewrite Z.mul_comm; apply Z.mul_le_mono_nonneg_l; [lia|exact Hi2]|exact HB]. }
  rewrite Ew. split; [apply bread_holds1; exact A1|].
  split; apply read_vec_spec; assumption.
Qed.

Lemma do_scalls_inv : forall f P cs st l, Z.of_nat N * (P + 1000) < 2 ^ 32 -> sinv P st l ->
  Z.of_nat (length l + length cs) <= P ->
  exists st', do_scalls N f st cs = Ok st' /\
    sinv P st' (fold_left (fun l c => match c with SReset y0 => [(0%R, y0, f 0%R y0)] | SStore t y yp => l ++ [(t, y, yp)] end) cs l).
Proof.
  intros f P cs. induction cs as [|c cs IH]; intros st l HB I HP.
  - exists st. split; [reflexivity|exact I].
  - cbn [length] in HP. cbn [do_scalls fold_left]. destruct c as [y0|t y yp]; cbn [do_scall].
    + unfold initial_value.
      destruct (store_solution_inv P _ [] 0%R y0 (f 0%R y0) HB (sinv_reset _ _ _ I)) as (st1 & E1 & I1 & _); [cbn; lia|].
      rewrite E1. cbn [obind]. apply IH; [exact HB|exact I1|]. cbn [app length]. lia.
    + destruct (store_solution_inv P st l t y yp HB I) as (st1 & E1 & I1 & _); [lia|].
      rewrite E1. cbn [obind]. apply IH; [exact HB|exact I1|]. rewrite app_length. cbn [length]. lia.
Qed.
End Storage.
