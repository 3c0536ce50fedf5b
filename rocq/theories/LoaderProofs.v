(** Lemmas about the loaders of numeric distribution functions. *)
From Coq Require Import Reals Lra Lia List.
From Verif Require Import Base DomainModel NumericModel NumericSpec NumericArrays DistributionModel DistributionSpec DistributionProofs DistributionBuild DistributionUse
  CodeModel CodeSpec GocodeProofs LoaderModel LoaderSpec.
Import ListNotations.
Local Open Scope R_scope.

Lemma read_vector_ok : forall a l, vector a l -> read_vector a = Ok l.
Proof.
  intros a l V. destruct (vector_ok a l V) as (m & -> & L & G). unfold read_vector. cbn [need obind]. rewrite L. cbn [obind].
  apply fill_list; [reflexivity|]. intros i v E. assert (I : (i < length l)%nat) by (apply nth_error_Some; rewrite E; discriminate).
  rewrite (G i I). rewrite (nth_error_nth l i 0 E). reflexivity.
Qed.

Lemma nth_firstn : forall (A : Type) n (l : list A) i, (i < n)%nat -> nth_error (firstn n l) i = nth_error l i.
Proof. intros A. induction n as [|n IH]; intros l i H; [lia|]. destruct l as [|x l]; [reflexivity|]. destruct i as [|i]; [reflexivity|]. cbn. apply IH. lia. Qed.
Lemma nth_skipn : forall (A : Type) n (l : list A) i, nth_error (skipn n l) i = nth_error l (n + i).
Proof. intros A. induction n as [|n IH]; intros l i; [reflexivity|]. destruct l as [|x l]; [destruct i; reflexivity|]. cbn. apply IH. Qed.
(** The distribution made of one table. *)
Definition made (lg : bool) (it : Z) (t : table) : outcome msdf :=
  if lg then obind (logs (length (t_p t) * length (t_xi t)) (t_f t)) (fun f => obind (ms_initialize false false (t_p t) (t_xi t) f it) (fun m => Ok (ms_set_log true m)))
  else ms_initialize false false (t_p t) (t_xi t) (map Fin (t_f t)) it.
Lemma made_ok : forall lg it p xi f g, mesh it p -> mesh it xi -> (length p * length xi <= length f)%nat ->
  (forall i j, (i < length p)%nat -> (j < length xi)%nat -> nth_error f (j * length p + i) = Some (g i j)) ->
  exists m, made lg it (Table p xi f) = Ok m /\ holds_table lg it m p xi g.
Proof.
  intros lg it p xi f g GP GX L G. destruct (grid_ends _ _ GP) as (p0 & p1 & P0 & P1 & PP'). destruct (grid_ends _ _ GX) as (x0 & x1 & X0 & X1 & XX').
  assert (PP : p0 <= p1) by lra. assert (XX : x0 <= x1) by lra. unfold made. cbn [t_p t_xi t_f].
  assert (W : forall (h : R -> xreal), tabulates (firstn (length p * length xi) (map h (firstn (length p * length xi) f))) (length p) (length xi) (fun i j => h (g i j))).
  { intro h. split; [rewrite firstn_length, map_length, firstn_length; lia|]. intros i j I J.
    assert (Q : (i + j * length p < length p * length xi)%nat).
    { assert ((S j) * length p <= length xi * length p)%nat by (apply Nat.mul_le_mono_r; lia). lia. }
    rewrite nth_firstn by exact Q. rewrite nth_error_map. rewrite nth_firstn by exact Q. rewrite Nat.add_comm, (G i j I J). reflexivity. }
  destruct lg.
  - unfold logs. replace (length f <? length p * length xi)%nat with false by (symmetry; apply Nat.ltb_ge; exact L). cbn [obind].
    rewrite (ms_initialize_do false false p xi _ it p0 p1 x0 x1 P0 P1 X0 X1 PP XX) by (try assumption; rewrite map_length, firstn_length; lia). cbn [obind].
    eexists. split; [reflexivity|]. unfold ms_set_log. cbn [ms_p ms_xi ms_f ms_pmin ms_pmax ms_ximin ms_ximax ms_cubic ms_flip].
    repeat (split; [reflexivity|]). split; [split; [exact P0|split; [exact P1|exact PP]]|]. split; [split; [exact X0|split; [exact X1|exact XX]]|]. apply W.
  - rewrite (ms_initialize_do false false p xi _ it p0 p1 x0 x1 P0 P1 X0 X1 PP XX) by (try assumption; rewrite map_length; lia).
    eexists. split; [reflexivity|]. repeat (split; [reflexivity|]). split; [split; [exact P0|split; [exact P1|exact PP]]|].
    split; [split; [exact X0|split; [exact X1|exact XX]]|]. cbn [ms_f]. rewrite firstn_map. pose proof (W Fin) as [W1 W2]. rewrite <- firstn_map, firstn_firstn, Nat.min_id, firstn_map in W1, W2.
    split; [exact W1|exact W2].
Qed.

Lemma put_last : forall (r : list R) (ms : list (option msdf)) lim e d d', length ms = length r ->
  put (Radial r (ms ++ [d]) lim e) (length r) d' = Radial r (ms ++ [d']) lim e.
Proof.
  intros r ms lim e d d' L. unfold put. cbn [rd_r rd_ms rd_lim rd_extra]. f_equal. rewrite <- L. clear L. induction ms as [|x ms IH]; [reflexivity|]. cbn. rewrite IH. reflexivity.
Qed.
Lemma update_end : forall (A : Type) (ms : list A) n d d', length ms = n -> update (ms ++ [d]) n d' = ms ++ [d'].
Proof. intros A ms n d d' <-. induction ms as [|x ms IH]; [reflexivity|]. cbn. rewrite IH. reflexivity. Qed.
Definition insert_one (lg : bool) (it : Z) (o : ndf) (x : R) (t : table) : ndf * outcome Z :=
  if lg then nd_insert_log o x (t_p t) (t_xi t) (t_f t) it false else nd_insert o x (t_p t) (t_xi t) (map Fin (t_f t)) it.
Lemma insert_one_ok : forall lg it o x t m, made lg it t = Ok m -> length (rd_ms o) = length (rd_r o) -> limits o ->
  (forall j a, nth_error (rd_r o) j = Some a -> a < x) ->
  exists lim i, insert_one lg it o x t = (Radial (rd_r o ++ [x]) (rd_ms o ++ [Some m]) (Some lim) (rd_extra o), Ok i) /\
    limits (Radial (rd_r o ++ [x]) (rd_ms o ++ [Some m]) (Some lim) (rd_extra o)).
Proof.
  intros lg it o x t m E LM LI H. destruct (insert_last _ o x None LM LI H) as (lim & I & LI'). exists lim, (Z.of_nat (length (rd_r o))).
  split; [|exact LI']. unfold insert_one, made in *. destruct lg.
  - unfold nd_insert_log. destruct (logs (length (t_p t) * length (t_xi t)) (t_f t)) as [tf| |]; try discriminate. cbn [obind] in E.
    unfold nd_insert. rewrite I. destruct (ms_initialize false false (t_p t) (t_xi t) tf it) as [m0| |]; try discriminate. cbn [obind] in E. injection E as <-.
    rewrite Nat2Z.id. unfold put at 1. cbn [rd_r rd_ms rd_lim rd_extra]. rewrite update_end by exact LM. cbn [rd_ms].
    replace (nth_error (rd_ms o ++ [Some m0]) (length (rd_r o))) with (Some (Some m0)).
    2: { rewrite nth_error_app2 by lia. rewrite LM, Nat.sub_diag. reflexivity. }
    unfold put. cbn [rd_r rd_ms rd_lim rd_extra]. rewrite !update_end by exact LM. reflexivity.
  - unfold nd_insert. rewrite I, E, Nat2Z.id. unfold put. cbn [rd_r rd_ms rd_lim rd_extra]. rewrite update_end by exact LM. reflexivity.
Qed.
Lemma insert_one_throw : forall lg it o x t, made lg it t = Throw -> length (rd_ms o) = length (rd_r o) -> limits o ->
  (forall j a, nth_error (rd_r o) j = Some a -> a < x) -> exists o', insert_one lg it o x t = (o', Throw).
Proof.
  intros lg it o x t E LM LI H. destruct (insert_last _ o x None LM LI H) as (lim & I & LI'). unfold insert_one, made in *. destruct lg.
  - unfold nd_insert_log. destruct (logs (length (t_p t) * length (t_xi t)) (t_f t)) as [tf| |] eqn:LG; try discriminate.
    + cbn [obind] in E. unfold nd_insert. rewrite I. destruct (ms_initialize false false (t_p t) (t_xi t) tf it) as [m0| |] eqn:MI; try discriminate.
      destruct (rejected_shape _ _ _ _ _ _ MI) as (m & -> & _). eexists. reflexivity.
    + unfold logs in LG. destruct (_ <? _)%nat; discriminate.
  - unfold nd_insert. rewrite I, E. destruct (rejected_shape _ _ _ _ _ _ E) as (m & -> & _). eexists. reflexivity.
Qed.
Lemma insert_cons : forall lg it o x t l, insert_tables lg it o ((x, t) :: l) = let (o', r) := insert_one lg it o x t in obind r (fun _ => insert_tables lg it o' l).
Proof. reflexivity. Qed.
Lemma above_all : forall o (x : R) l, ascending (rd_r (D := option msdf) o ++ x :: l) -> forall j a, nth_error (rd_r o) j = Some a -> a < x.
Proof.
  intros o x l G j a J. assert (Q : (j < length (rd_r o))%nat) by (apply nth_error_Some; rewrite J; discriminate).
  apply (G j (length (rd_r o))); [exact Q|rewrite nth_error_app1 by exact Q; exact J|]. rewrite nth_error_app2 by lia. rewrite Nat.sub_diag. reflexivity.
Qed.
Lemma insert_all : forall lg it l ms o, Forall2 (fun xt m => made lg it (snd xt) = Ok m) l ms -> ascending (rd_r o ++ map fst l) ->
  length (rd_ms o) = length (rd_r o) -> limits o ->
  exists lim, insert_tables lg it o l = Ok (Radial (rd_r o ++ map fst l) (rd_ms o ++ map Some ms) lim (rd_extra o)) /\
    limits (Radial (rd_r o ++ map fst l) (rd_ms o ++ map Some ms) lim (rd_extra o)).
Proof.
  intros lg it l ms o F. revert o. induction F as [|[x t] m l ms E _ IH]; intros o G LM LI.
  - exists (rd_lim o). cbn [map]. rewrite !app_nil_r. destruct o as [r ms lim e]. split; [reflexivity|exact LI].
  - cbn [map fst snd] in *. rewrite insert_cons. destruct (insert_one_ok lg it o x t m E LM LI (above_all o x _ G)) as (lim & i & Q & LI'). rewrite Q. cbn [obind].
    destruct (IH (Radial (rd_r o ++ [x]) (rd_ms o ++ [Some m]) (Some lim) (rd_extra o))) as (lim' & E' & LI2).
    + cbn [rd_r]. rewrite <- app_assoc. exact G.
    + cbn [rd_r rd_ms]. rewrite !app_length, LM. reflexivity.
    + exact LI'.
    + cbn [rd_r rd_ms rd_extra] in E', LI2. rewrite <- !app_assoc in E', LI2. exists lim'. split; [exact E'|exact LI2].
Qed.

Lemma collect_tables : forall lg it rs (ts : nat -> table) (p xi : nat -> list R) g,
  (forall k, (k < length rs)%nat -> exists m, made lg it (ts k) = Ok m /\ holds_table lg it m (p k) (xi k) (g k)) -> ascending rs ->
  exists o, insert_tables lg it rd_new (combine rs (map ts (seq 0 (length rs)))) = Ok o /\ distribution lg it o rs p xi g.
Proof.
  intros lg it rs ts p xi g H A.
  assert (W : forall n k, (k + n <= length rs)%nat -> exists ms, Forall2 (fun t m => made lg it t = Ok m) (map ts (seq k n)) ms /\
    forall i, (i < n)%nat -> exists m, nth_error ms i = Some m /\ holds_table lg it m (p (k + i)%nat) (xi (k + i)%nat) (g (k + i)%nat)).
  { induction n as [|n IH]; intros k L; [exists []; split; [constructor|intros i I; lia]|].
    destruct (H k ltac:(lia)) as (m & E & HT). destruct (IH (S k) ltac:(lia)) as (ms & F & V). exists (m :: ms). split; [constructor; assumption|].
    intros [|i] I; [exists m; split; [reflexivity|rewrite Nat.add_0_r; exact HT]|]. destruct (V i ltac:(lia)) as (m' & E' & HT'). exists m'. split; [exact E'|].
    rewrite Nat.add_succ_r. exact HT'. }
  destruct (W (length rs) 0%nat ltac:(lia)) as (ms & F & V). assert (LT : length (map ts (seq 0 (length rs))) = length rs) by (rewrite map_length; apply seq_length).
  assert (LM : length ms = length rs) by (rewrite <- (Forall2_len _ _ _ _ _ F); exact LT).
  assert (F' : Forall2 (fun xt m => made lg it (snd xt) = Ok m) (combine rs (map ts (seq 0 (length rs)))) ms).
  { clear -F LT. revert LT F. generalize (map ts (seq 0 (length rs))) as l. intros l. revert rs ms. induction l as [|t l IH]; intros rs ms L F; inversion F; subst; destruct rs; try discriminate; [constructor|].
    cbn [combine]. constructor; [assumption|]. apply IH; [cbn in L; lia|assumption]. }
  assert (FS : map fst (combine rs (map ts (seq 0 (length rs)))) = rs).
  { clear -LT. revert LT. generalize (map ts (seq 0 (length rs))) as l. induction rs as [|x rs IH]; intros [|t l] L; try discriminate; [reflexivity|]. cbn. rewrite IH; [reflexivity|cbn in L; lia]. }
  destruct (insert_all lg it _ ms rd_new F') as (lim & E & LI); [rewrite FS; exact A|reflexivity|exact I|]. rewrite FS in E, LI. cbn [rd_new rd_r rd_ms rd_extra app] in E, LI.
  eexists. split; [exact E|]. split; [reflexivity|]. split; [cbn [rd_ms]; rewrite map_length; exact LM|]. split; [exact LI|]. split; [reflexivity|].
  intros k K. destruct (V k K) as (m & E1 & HT). exists m. split; [cbn [rd_ms]; rewrite nth_error_map, E1; reflexivity|exact HT].
Qed.

(** Finding an element of a table inside a block. *)
Lemma block_table : forall f nr np nxi g k, block_of f nr np nxi g -> (k < nr)%nat ->
  (np * nxi <= length (skipn (k * (np * nxi)) f))%nat /\
  forall i j, (i < np)%nat -> (j < nxi)%nat -> nth_error (skipn (k * (np * nxi)) f) (j * np + i) = Some (g k i j).
Proof.
  intros f nr np nxi g k [L V] K. split.
  - rewrite skipn_length, L. assert ((S k) * (nxi * np) <= nr * (nxi * np))%nat by (apply Nat.mul_le_mono_r; lia). lia.
  - intros i j I J. rewrite nth_skipn. replace (k * (np * nxi) + (j * np + i))%nat with ((k * nxi + j) * np + i)%nat by lia. apply V; assumption.
Qed.

(** DREAM's time index. *)
Lemma time_index_ok : forall nt n time, (n <> 0)%nat -> (Z.of_nat n * (Z.of_nat nt + 2 ^ 31) < 2 ^ 64)%Z -> (- 2 ^ 31 <= time < 2 ^ 31)%Z ->
  time_index nt n time = (let t := if (time <? 0)%Z then (Z.of_nat nt + time)%Z else time in if ((0 <=? t) && (t <=? Z.of_nat nt))%Z%bool then Some (t * Z.of_nat n)%Z else None).
Proof.
  intros nt n time N B T. unfold time_index. set (t := (if (time <? 0)%Z then Z.of_nat nt + time else time)%Z). cbv zeta.
  assert (TB : (- 2 ^ 31 <= t < 2 ^ 31 \/ 0 <= t <= Z.of_nat nt)%Z) by (unfold t; destruct (Z.ltb_spec time 0); lia).
  assert (NN : (0 < Z.of_nat n)%Z) by lia.
  assert (LIM : (Z.of_nat nt * Z.of_nat n < 2 ^ 64)%Z) by nia.
  rewrite (Z.mod_small (Z.of_nat nt * Z.of_nat n)) by nia.
  destruct (Z.leb_spec 0 t); cbn [andb].
  - assert (t * Z.of_nat n < 2 ^ 64)%Z by (destruct TB; nia). rewrite Z.mod_small by nia. destruct (Z.leb_spec t (Z.of_nat nt)); destruct (Z.ltb_spec (Z.of_nat nt * Z.of_nat n) (t * Z.of_nat n)); try reflexivity; nia.
  - assert (M : ((t * Z.of_nat n) mod 2 ^ 64 = t * Z.of_nat n + 2 ^ 64)%Z).
    { symmetry. apply (Z.mod_unique _ _ (-1)); [|lia]. left. nia. }
    rewrite M. destruct (Z.ltb_spec (Z.of_nat nt * Z.of_nat n) (t * Z.of_nat n + 2 ^ 64)); [reflexivity|nia].
Qed.

(** The verification of old SOFT files. *)
Lemma epsilon_eq : epsilon = / 2 ^ 52. Proof. reflexivity. Qed.
Lemma compare_ok : forall v step f0 i, (forall j x, nth_error f0 j = Some x -> ((i + j) * step < length v)%nat) ->
  exists b, compare_from v step i f0 = Ok b /\ (b = true <-> forall j x y, nth_error f0 j = Some x -> nth_error v ((i + j) * step) = Some y -> close x y).
Proof.
  intros v step. induction f0 as [|x f0 IH]; intros i H.
  - exists true. split; [reflexivity|]. split; [|reflexivity]. intros _ [|j] x y E; discriminate.
  - cbn [compare_from]. pose proof (H 0%nat x eq_refl) as H0. rewrite Nat.add_0_r in H0. unfold dget. destruct (nth_error v (i * step)) as [y|] eqn:Y; [|apply nth_error_None in Y; lia]. cbn [obind]. cbv zeta.
    assert (C : close x y <-> (if Req_EM_T x 0 then (if Rlt_dec epsilon (Rabs (x - y)) then false else true) else (if Rlt_dec epsilon (Rabs (x - y) / Rabs x) then false else true)) = true).
    { unfold close. rewrite <- epsilon_eq. destruct (Req_EM_T x 0) as [Z|Z].
      - destruct (Rlt_dec epsilon (Rabs (x - y))); split; intros; try discriminate; try reflexivity; [destruct H1 as [H1 _]; specialize (H1 Z); lra|]. split; intros; [lra|contradiction].
      - assert (P : 0 < Rabs x) by (apply Rabs_pos_lt; exact Z). assert (E : Rabs (x - y) = Rabs (x - y) / Rabs x * Rabs x) by (field; lra).
        destruct (Rlt_dec epsilon (Rabs (x - y) / Rabs x)) as [D|D]; split; intros; try discriminate; try reflexivity.
        + destruct H1 as [_ H1]. specialize (H1 Z). exfalso. apply (Rmult_lt_compat_r (Rabs x)) in D; [|exact P]. lra.
        + split; intros; [contradiction|]. rewrite E. apply Rmult_le_compat_r; lra. }
    destruct (IH (S i)) as (b & E & B).
    { intros j z Z. replace (S i + j)%nat with (i + S j)%nat by lia. apply (H (S j) z Z). }
    assert (NO : close x y -> False -> False) by tauto.
    assert (Q : (forall j x' y', nth_error (x :: f0) j = Some x' -> nth_error v ((i + j) * step) = Some y' -> close x' y') <-> close x y /\ (b = true)).
    { rewrite B. split.
      - intro A. split; [apply (A 0%nat); [reflexivity|rewrite Nat.add_0_r; exact Y]|]. intros j x' y' X' Y'. apply (A (S j)); [exact X'|]. replace (i + S j)%nat with (S i + j)%nat by lia. exact Y'.
      - intros [A1 A2] [|j] x' y' X' Y'; [injection X' as <-; rewrite Nat.add_0_r, Y in Y'; injection Y' as <-; exact A1|].
        apply (A2 j); [exact X'|]. replace (S i + j)%nat with (i + S j)%nat by lia. exact Y'. }
    destruct (Req_EM_T x 0); [destruct (Rlt_dec epsilon (Rabs (x - y)))|destruct (Rlt_dec epsilon (Rabs (x - y) / Rabs x))];
      try (exists false; split; [reflexivity|]; rewrite Q, C; split; [discriminate|intros [? _]; discriminate]);
      (exists b; split; [exact E|]; rewrite Q, C; tauto).
Qed.

Lemma init_firstn : forall lg fl p xi f it, (length p * length xi <= length f)%nat ->
  ms_initialize lg fl p xi (firstn (length p * length xi) f) it = ms_initialize lg fl p xi f it.
Proof.
  intros lg fl p xi f it L. unfold ms_initialize. rewrite firstn_length, firstn_firstn, Nat.min_id, Nat.min_l by exact L.
  rewrite Nat.ltb_irrefl. replace (length f <? length p * length xi)%nat with false by (symmetry; apply Nat.ltb_ge; exact L). reflexivity.
Qed.
Lemma momentum_made : forall lg it t m, made lg it t = Ok m -> (length (t_p t) * length (t_xi t) <= length (t_f t))%nat ->
  (lg = true -> forall i v, (i < length (t_p t) * length (t_xi t))%nat -> nth_error (t_f t) i = Some v -> 0 <= v) -> momentum lg it t = Ok m.
Proof.
  intros lg it [p xi f] m E L P. unfold momentum, made in *. cbn [t_p t_xi t_f] in *. destruct lg; [|exact E]. unfold ms_initialize_log.
  rewrite (log_table_ok _ _ L (P eq_refl)). cbn [obind]. unfold logs in E. replace (length f <? length p * length xi)%nat with false in E by (symmetry; apply Nat.ltb_ge; exact L).
  cbn [obind] in E. replace (map xlog (firstn (length p * length xi) f)) with (map safe_log (firstn (length p * length xi) f)).
  - destruct (ms_initialize false false p xi (map safe_log (firstn (length p * length xi) f)) it) as [m0| |] eqn:E0; try discriminate. cbn [obind] in E. injection E as <-.
    destruct (ms_initialize_ok _ _ _ _ _ _ _ E0) as (a & b & c & d & Q1 & Q2 & Q3 & Q4 & Q5 & Q6 & Q7 & (Q8 & Q9) & ->). rewrite (ms_initialize_do true false p xi _ it a b c d Q1 Q2 Q3 Q4 Q5 Q6 Q7 Q8 Q9). reflexivity.
  - apply map_ext_in. intros v I. symmetry. apply xlog_nonneg. apply In_nth_error in I. destruct I as (i & I).
    assert (Q : (i < length p * length xi)%nat).
    { assert ((i < length (firstn (length p * length xi) f))%nat) by (apply nth_error_Some; rewrite I; discriminate). rewrite firstn_length in H. lia. }
    rewrite nth_firstn in I by exact Q. apply (P eq_refl i v Q I).
Qed.

Lemma block_load_ok : forall lg it r p xi f g a b, ascending r -> nth_error r 0 = Some a -> nth_error r (length r - 1) = Some b -> mesh it p -> mesh it xi ->
  block_of f (length r) (length p) (length xi) g ->
  exists ds, block_load (Block r p xi f) lg it = Ok (Radial (tl r) (map ds (seq 0 (length r))) (Some (a, b)) true) /\
    forall k, (k < length r)%nat -> exists m, ds k = Some m /\ holds_table lg it m p xi (g k).
Proof.
  intros lg it r p xi f g a b G A B OP OX BL. set (n := (length p * length xi)%nat).
  assert (W : forall k, (k < length r)%nat -> exists m, made lg it (Table p xi (skipn (k * n) f)) = Ok m /\ holds_table lg it m p xi (g k)).
  { intros k K. destruct (block_table _ _ _ _ _ k BL K) as [L V]. apply made_ok; assumption. }
  exists (fun k => match made lg it (Table p xi (skipn (k * n) f)) with Ok m => Some m | _ => None end). split.
  - unfold block_load. cbn [b_r b_p b_xi b_f]. destruct lg.
    + unfold nd_initialize_log, logs. assert (LN : (length r * length p * length xi = length f)%nat) by (destruct BL as [L _]; lia). rewrite LN, Nat.ltb_irrefl, firstn_all. cbn [obind].
      unfold nd_initialize.
      rewrite (initialize_up _ r _ (fun k => match ms_initialize false false p xi (skipn (k * n) (map safe_log f)) it with Ok m => Some m | _ => None end) a b G A B).
      * cbn [obind fst rd_r rd_ms rd_lim rd_extra]. do 2 f_equal. rewrite map_map. apply map_ext_in. intros k K. apply in_seq in K. destruct (W k ltac:(lia)) as (m & E & _).
        rewrite E. unfold made, logs in E. cbn [t_p t_xi t_f] in E. fold n in E. destruct (block_table _ _ _ _ _ k BL ltac:(lia)) as [L _]. fold n in L.
        replace (length (skipn (k * n) f) <? n)%nat with false in E by (symmetry; apply Nat.ltb_ge; exact L). cbn [obind] in E.
        rewrite <- firstn_map, <- skipn_map in E. unfold n in E at 1. rewrite init_firstn in E by (rewrite skipn_length, map_length; rewrite skipn_length in L; exact L).
        destruct (ms_initialize false false p xi (skipn (k * n) (map safe_log f)) it); try discriminate. cbn [obind] in E. injection E as <-. reflexivity.
      * intros k K. destruct (W k K) as (m & E & _). unfold made, logs in E. cbn [t_p t_xi t_f] in E. fold n in E |- *. destruct (block_table _ _ _ _ _ k BL K) as [L _]. fold n in L.
        replace (length (skipn (k * n) f) <? n)%nat with false in E by (symmetry; apply Nat.ltb_ge; exact L). cbn [obind] in E.
        rewrite <- firstn_map, <- skipn_map in E. unfold n in E at 1. rewrite init_firstn in E by (rewrite skipn_length, map_length; rewrite skipn_length in L; exact L).
        destruct (ms_initialize false false p xi (skipn (k * n) (map safe_log f)) it); try discriminate. reflexivity.
    + unfold nd_initialize. apply (initialize_up _ r _ _ a b G A B). intros k K. destruct (W k K) as (m & E & _). unfold made in E |- *. cbn [t_p t_xi t_f] in E |- *. fold n.
      rewrite <- skipn_map in E |- *. rewrite E. reflexivity.
  - intros k K. destruct (W k K) as (m & E & H). rewrite E. exists m. split; [reflexivity|exact H].
Qed.
Lemma block_momentum_ok : forall lg it r p xi f g k, mesh it p -> mesh it xi -> block_of f (length r) (length p) (length xi) g -> (k < length r)%nat ->
  (lg = true -> forall i j, (i < length p)%nat -> (j < length xi)%nat -> 0 <= g k i j) ->
  exists m, block_momentum (Block r p xi f) lg k it = Ok m /\ holds_table lg it m p xi (g k).
Proof.
  intros lg it r p xi f g k OP OX BL K P. set (n := (length p * length xi)%nat). destruct (block_table _ _ _ _ _ k BL K) as [L V]. fold n in L, V.
  assert (LF : length (firstn n (skipn (k * n) f)) = n) by (apply firstn_length_le; exact L).
  destruct (made_ok lg it p xi (firstn n (skipn (k * n) f)) (g k) OP OX) as (m & E & H).
  - fold n. lia.
  - intros i j I J. assert (Q : (j * length p + i < n)%nat).
    { unfold n. assert ((S j) * length p <= length xi * length p)%nat by (apply Nat.mul_le_mono_r; lia). lia. }
    rewrite nth_firstn by exact Q. apply V; assumption.
  - exists m. split; [|exact H]. unfold block_momentum. cbn [b_r b_p b_xi b_f]. fold n. replace (length r <=? k)%nat with false by (symmetry; apply Nat.leb_gt; exact K).
    replace (length f <? k * n + n)%nat with false by (symmetry; apply Nat.ltb_ge; rewrite skipn_length in L; destruct (Nat.eq_dec n 0); lia || idtac).
    + apply momentum_made; [exact E|cbn [t_p t_xi t_f]; fold n; lia|]. cbn [t_p t_xi t_f]. fold n. intros LG i v I N. rewrite nth_firstn in N by exact I.
      destruct (index_split (length p) (length xi) i I) as (I1 & I2 & I3). rewrite I3, V in N by assumption. injection N as <-. apply (P LG); assumption.
Qed.

Lemma fill_throw : forall (A : Type) n (g : nat -> outcome A) i, (i < n)%nat -> g i = Throw -> (forall j, (j < i)%nat -> exists v, g j = Ok v) -> fill n g = Throw.
Proof.
  intros A. assert (G : forall n k (g : nat -> outcome A) i, (i < n)%nat -> g (k + i)%nat = Throw -> (forall j, (j < i)%nat -> exists v, g (k + j)%nat = Ok v) -> fill_from k n g = Throw).
  { induction n as [|n IH]; intros k g i I T H; [lia|]. cbn [fill_from]. destruct i as [|i].
    - rewrite Nat.add_0_r in T. rewrite T. reflexivity.
    - destruct (H 0%nat ltac:(lia)) as (v & E). rewrite Nat.add_0_r in E. rewrite E. cbn [obind].
      rewrite (IH (S k) g i); [reflexivity|lia|rewrite <- T; f_equal; lia|]. intros j J. destruct (H (S j) ltac:(lia)) as (w & W). exists w. rewrite <- W. f_equal. lia. }
  intros n g i. apply (G n 0%nat g i).
Qed.
Lemma fill_ub : forall (A : Type) n (g : nat -> outcome A) i, (i < n)%nat -> g i = UB -> (forall j, (j < i)%nat -> exists v, g j = Ok v) -> fill n g = UB.
Proof.
  intros A. assert (G : forall n k (g : nat -> outcome A) i, (i < n)%nat -> g (k + i)%nat = UB -> (forall j, (j < i)%nat -> exists v, g (k + j)%nat = Ok v) -> fill_from k n g = UB).
  { induction n as [|n IH]; intros k g i I T H; [lia|]. cbn [fill_from]. destruct i as [|i].
    - rewrite Nat.add_0_r in T. rewrite T. reflexivity.
    - destruct (H 0%nat ltac:(lia)) as (v & E). rewrite Nat.add_0_r in E. rewrite E. cbn [obind].
      rewrite (IH (S k) g i); [reflexivity|lia|rewrite <- T; f_equal; lia|]. intros j J. destruct (H (S j) ltac:(lia)) as (w & W). exists w. rewrite <- W. f_equal. lia. }
  intros n g i. apply (G n 0%nat g i).
Qed.
Lemma no_vector_throw : forall a, no_vector a -> obind (need a) vector_length = Throw.
Proof.
  intros a [->|(m & -> & H1 & H2)]; [reflexivity|]. cbn [need obind]. unfold vector_length.
  replace (ma_rows m =? 1)%nat with false by (symmetry; apply Nat.eqb_neq; exact H1). replace (ma_cols m =? 1)%nat with false by (symmetry; apply Nat.eqb_neq; exact H2). reflexivity.
Qed.
Lemma read_no_vector : forall a, no_vector a -> read_vector a = Throw.
Proof.
  intros a H. apply no_vector_throw in H. unfold read_vector. destruct a as [m|]; [|reflexivity]. cbn [need obind] in *. rewrite H. reflexivity.
Qed.
Lemma first_row_ok : forall a l, vector a l -> l <> [] -> first_row a = Ok tt.
Proof.
  intros a l V N. pose proof (vector_rows _ _ V N) as Q. destruct V as (m & -> & _). specialize (Q m eq_refl). unfold first_row, release. cbn [need obind]. apply Nat.eqb_neq in Q. rewrite Q. reflexivity.
Qed.
Lemma release_some : forall (m : marray R), ma_rows m <> 0%nat -> release m = Ok tt.
Proof. intros m H. unfold release. apply Nat.eqb_neq in H. rewrite H. reflexivity. Qed.
Lemma release_none : forall (m : marray R), ma_rows m = 0%nat -> release m = UB.
Proof. intros m H. unfold release. rewrite H. reflexivity. Qed.
Lemma row_or_not : forall a l, vector a l -> first_row a = Ok tt \/ (first_row a = UB /\ no_rows a).
Proof.
  intros a l (m & -> & _). unfold first_row. cbn [need obind]. destruct (Nat.eq_dec (ma_rows m) 0) as [Z|Z]; [right|left].
  - split; [apply release_none; exact Z|]. exists m. split; [reflexivity|exact Z].
  - apply release_some. exact Z.
Qed.
Lemma length_pos : forall (l : list R), l <> [] -> length l <> 0%nat.
Proof. intros [|x l] H; [congruence|discriminate]. Qed.
Lemma group_ok : forall s p xi g, group s p xi g -> exists f, soft_radius s = Ok (Table p xi f) /\ length f = (length p * length xi)%nat /\
  forall i j, (i < length p)%nat -> (j < length xi)%nat -> nth_error f (j * length p + i) = Some (g i j).
Proof.
  intros s p xi g (NP & NX & P & X & f & F & S1 & S2 & S3 & S4). exists (ma_data f). split; [|split; [lia|intros i j I J; apply S4; assumption]].
  unfold soft_radius. rewrite (read_vector_ok _ _ P), F. cbn [obind]. rewrite (read_vector_ok _ _ X). cbn [obind need]. rewrite release_some by (rewrite S1; apply length_pos, NX). cbn [obind].
  rewrite S1, S2, !Nat.eqb_refl. cbn [negb orb]. rewrite (first_row_ok _ _ P NP). cbn [obind]. rewrite (first_row_ok _ _ X NX). reflexivity.
Qed.
Lemma bad_group_throw : forall s, bad_group s -> soft_radius s = Throw.
Proof.
  intros s [P|(p & P & [X|(xi & X & R0 & F)])]; unfold soft_radius.
  - rewrite (read_no_vector _ P). reflexivity.
  - rewrite (read_vector_ok _ _ P). cbn [obind]. rewrite (read_no_vector _ X). reflexivity.
  - rewrite (read_vector_ok _ _ P). cbn [obind]. rewrite (read_vector_ok _ _ X). cbn [obind]. destruct (sg_f s) as [f|] eqn:E; [|reflexivity]. cbn [need obind].
    rewrite release_some by (intro Z; apply R0; exists f; split; [reflexivity|exact Z]). cbn [obind]. destruct (F f eq_refl) as [Q|Q]; apply Nat.eqb_neq in Q; rewrite Q; cbn [negb orb]; rewrite ?orb_true_r; reflexivity.
Qed.
(** The tables of a SOFT file. *)
Definition soft_table (groups : nat -> sgroup) (k : nat) : table := match soft_radius (groups k) with Ok t => t | _ => Table [] [] [] end.
Lemma soft_raw_ok : forall magic r groups rs p xi g axis, soft_file magic r groups rs p xi g ->
  soft_raw magic r groups axis = if increasing (map (fun x => x + axis) rs) then Ok (combine (map (fun x => x + axis) rs) (map (soft_table groups) (seq 0 (length rs)))) else Throw.
Proof.
  intros magic r groups rs p xi g axis (M & NE & V & G). unfold soft_raw. pose proof (vector_rows _ _ V NE) as RW. destruct (vector_ok _ _ V) as (m & -> & L & A). specialize (RW m eq_refl).
  assert (E : obind (need (Some m)) (fun a => obind (vector_length a) (fun nr => obind (fill nr (fun i => soft_radius (groups i))) (fun ts => obind (release a) (fun _ =>
    obind (fill nr (fun i => obind (aget a 0 i) (fun v => Ok (v + axis)))) (fun rs => if negb (monotone true rs) then Throw else Ok (combine rs ts)))))) =
    if increasing (map (fun x => x + axis) rs) then Ok (combine (map (fun x => x + axis) rs) (map (soft_table groups) (seq 0 (length rs)))) else Throw).
  { cbn [need obind]. rewrite L. cbn [obind]. rewrite (fill_ok _ _ _ (soft_table groups)).
    - cbn [obind]. rewrite (release_some m RW). cbn [obind]. rewrite (fill_list _ _ _ (map (fun x => x + axis) rs)).
      + cbn [obind]. rewrite monotone_up. destruct (increasing (map (fun x => x + axis) rs)); reflexivity.
      + apply map_length.
      + intros i v I. rewrite nth_error_map in I. destruct (nth_error rs i) as [x|] eqn:X; [|discriminate]. injection I as <-.
        rewrite A by (apply nth_error_Some; rewrite X; discriminate). cbn [obind]. rewrite (nth_error_nth rs i 0 X). reflexivity.
    - intros i I. destruct (group_ok _ _ _ _ (G i I)) as (f & F & _). unfold soft_table. rewrite F. reflexivity. }
  destruct magic as [[|]|]; [exact E|congruence|exact E].
Qed.
Lemma ascending_shift : forall l c, ascending (map (fun x => x + c) l) <-> ascending l.
Proof.
  intros l c. split; intros H i j a b IJ A B.
  - assert (Q := H i j (a + c) (b + c) IJ). rewrite !nth_error_map, A, B in Q. specialize (Q eq_refl eq_refl). lra.
  - rewrite nth_error_map in A, B. destruct (nth_error l i) as [x|] eqn:X; [|discriminate]. destruct (nth_error l j) as [y|] eqn:Y; [|discriminate].
    injection A as <-. injection B as <-. assert (Q := H i j x y IJ X Y). lra.
Qed.
(** The last characters of a string. *)
Lemma string_length_append : forall a b, String.length (String.append a b) = (String.length a + String.length b)%nat.
Proof. intros a b. induction a as [|c a IH]; [reflexivity|]. cbn. rewrite IH. reflexivity. Qed.
Lemma substring_whole : forall e, String.substring 0 (String.length e) e = e.
Proof. induction e as [|c e IH]; [reflexivity|]. cbn. rewrite IH. reflexivity. Qed.
Lemma substring_tail : forall a e, String.substring (String.length a) (String.length e) (String.append a e) = e.
Proof. intros a e. induction a as [|c a IH]; [apply substring_whole|]. exact IH. Qed.
Lemma tail_ok : forall s e, ends_with s e -> tail_of s (String.length e) = Ok e.
Proof.
  intros s e (a & ->). unfold tail_of. rewrite string_length_append. replace (String.length a + String.length e <? String.length e)%nat with false by (symmetry; apply Nat.ltb_ge; lia).
  rewrite Nat.add_sub, substring_tail. reflexivity.
Qed.
Lemma substring_split : forall n s, (n <= String.length s)%nat -> s = String.append (String.substring 0 n s) (String.substring n (String.length s - n) s).
Proof.
  induction n as [|n IH]; intros s H.
  - rewrite Nat.sub_0_r, substring_whole. destruct s; reflexivity.
  - destruct s as [|c s]; [cbn in H; lia|]. cbn [String.length] in *. cbn. f_equal. apply IH. lia.
Qed.
Lemma tail_inv : forall s n e, tail_of s n = Ok e -> ends_with s e.
Proof.
  intros s n e H. unfold tail_of in H. destruct (Nat.ltb_spec (String.length s) n) as [|L]; [discriminate|]. injection H as H.
  exists (String.substring 0 (String.length s - n) s). rewrite <- H. replace n with (String.length s - (String.length s - n))%nat at 3 by lia. apply substring_split. lia.
Qed.
Lemma grid_ok : forall name grid, grid_of name grid -> dream_grid name = Ok grid.
Proof.
  intros name grid [[H ->]|[H ->]]; unfold dream_grid.
  - assert (E : tail_of name 4 = Ok "f_re"%string) by exact (tail_ok name "f_re" H). rewrite E. reflexivity.
  - assert (H4 : exists e, tail_of name 4 = Ok e /\ e = "_hot"%string).
    { exists "_hot"%string. split; [|reflexivity]. apply (tail_ok name "_hot"). destruct H as (a & ->). exists (String.append a "f"). clear. induction a as [|c a IH]; [reflexivity|]. cbn. f_equal. exact IH. }
    destruct H4 as (e & -> & ->). cbn [obind]. assert (E : tail_of name 5 = Ok "f_hot"%string) by exact (tail_ok name "f_hot" H). rewrite E. reflexivity.
Qed.
Lemma grid_no : forall name, (forall grid, ~ grid_of name grid) -> dream_grid name = Throw.
Proof.
  intros name H. unfold dream_grid. destruct (tail_of name 4) as [e| |] eqn:E; cbn [obind].
  - destruct (String.eqb_spec e "f_re") as [->|N]; [exfalso; apply (H "/grid/runaway"%string); left; split; [exact (tail_inv _ _ _ E)|reflexivity]|].
    destruct (tail_of name 5) as [e5| |] eqn:E5; cbn [obind].
    + destruct (String.eqb_spec e5 "f_hot") as [->|N5]; [exfalso; apply (H "/grid/hottail"%string); right; split; [exact (tail_inv _ _ _ E5)|reflexivity]|]. reflexivity.
    + reflexivity.
    + unfold tail_of in E5. destruct (_ <? _)%nat in E5; discriminate.
  - reflexivity.
  - unfold tail_of in E. destruct (_ <? _)%nat in E; discriminate.
Qed.
Lemma name_full : forall d distname, distname <> EmptyString -> dream_name d distname = if has d (full_name distname) then Ok (full_name distname) else Throw.
Proof.
  intros d [|c s] N; [congruence|]. unfold dream_name. cbn [obind]. unfold full_name.
  destruct (Ascii.eqb_spec c "/") as [->|NE]; [reflexivity|]. replace (match c with "/"%char => String c s | _ => String.append "/eqsys/" (String c s) end) with (String.append "/eqsys/" (String c s)); [reflexivity|].
  destruct c as [[|] [|] [|] [|] [|] [|] [|] [|]]; try reflexivity. exfalso. apply NE. reflexivity.
Qed.
Lemma name_ok : forall d distname name, selects d distname name -> dream_name d distname = Ok name.
Proof.
  intros d distname name (P & [[N ->]|[-> [->|[Q ->]]]]).
  - rewrite (name_full d distname N). rewrite P. reflexivity.
  - unfold dream_name. rewrite P. cbn [obind]. rewrite P. reflexivity.
  - unfold dream_name. rewrite Q, P. cbn [obind]. rewrite P. reflexivity.
Qed.
Lemma name_no : forall d distname, (forall name, ~ selects d distname name) -> dream_name d distname = Throw.
Proof.
  intros d distname H. destruct (String.eqb_spec distname EmptyString) as [->|N].
  - unfold dream_name. destruct (has d "/eqsys/f_re") eqn:E1.
    { exfalso. apply (H "/eqsys/f_re"%string). split; [exact E1|]. right. split; [reflexivity|]. left. reflexivity. }
    destruct (has d "/eqsys/f_hot") eqn:E2.
    { exfalso. apply (H "/eqsys/f_hot"%string). split; [exact E2|]. right. split; [reflexivity|]. right. split; [exact E1|reflexivity]. }
    reflexivity.
  - rewrite (name_full d distname N). destruct (has d (full_name distname)) eqn:E; [|reflexivity]. exfalso. apply (H (full_name distname)).
    split; [exact E|]. left. split; [exact N|reflexivity].
Qed.

(** A DREAM file, read as far as the time slice. *)
Lemma dream_raw_ok : forall d axis distname time name grid nt r p xi g, selects d distname name -> grid_of name grid -> dream_file d name grid nt r p xi g ->
  exists f, dr_array d name = Some ([nt; length r; length xi; length p], f) /\ dream_raw d axis distname time =
    match time_index nt (length r * length p * length xi) time with
    | None => Throw
    | Some t => if increasing (map (fun v => v + axis) r)
                then Ok (t, combine (map (fun v => v + axis) r) (map (fun i => Table p xi (skipn (Z.to_nat t + i * (length p * length xi)) f)) (seq 0 (length (map (fun v => v + axis) r)))))
                else Throw
    end.
Proof.
  intros d axis distname time name grid nt r p xi g SE GR ((ts & T & LT) & RR & P1 & P2 & f & F & _). exists f. split; [exact F|]. unfold dream_raw.
  rewrite (name_ok _ _ _ SE). cbn [obind]. rewrite (grid_ok _ _ GR). cbn [obind]. rewrite F, T, RR, P1, P2. cbn [need obind fst snd]. rewrite !Nat.eqb_refl. cbn [andb negb]. rewrite LT.
  destruct (time_index nt (length r * length p * length xi) time); [|reflexivity]. rewrite monotone_up, map_length. destruct (increasing (map (fun v => v + axis) r)); reflexivity.
Qed.
Lemma made_short : forall lg it p xi f, mesh it p -> mesh it xi -> (length f < length p * length xi)%nat -> made lg it (Table p xi f) = UB.
Proof.
  intros lg it p xi f GP GX L. destruct (grid_ends _ _ GP) as (p0 & p1 & P0 & P1 & PP). destruct (grid_ends _ _ GX) as (x0 & x1 & X0 & X1 & XX). unfold made. cbn [t_p t_xi t_f]. destruct lg.
  - unfold logs. replace (length f <? length p * length xi)%nat with true by (symmetry; apply Nat.ltb_lt; exact L). reflexivity.
  - unfold ms_initialize, dget. rewrite P0, P1, X0, X1. cbn [obind]. replace (Rltb p1 p0) with false by (symmetry; apply Rltb_f; lra). replace (Rltb x1 x0) with false by (symmetry; apply Rltb_f; lra).
    rewrite map_length. replace (length f <? length p * length xi)%nat with true by (symmetry; apply Nat.ltb_lt; exact L). destruct (negb _); reflexivity.
Qed.
Lemma insert_one_ub : forall lg it o x t, made lg it t = UB -> length (rd_ms o) = length (rd_r o) -> limits o ->
  (forall j a, nth_error (rd_r o) j = Some a -> a < x) -> exists o', insert_one lg it o x t = (o', UB).
Proof.
  intros lg it o x t E LM LI H. destruct (insert_last _ o x None LM LI H) as (lim & I & LI'). unfold insert_one, made in *. destruct lg.
  - unfold nd_insert_log. destruct (logs (length (t_p t) * length (t_xi t)) (t_f t)) as [tf| |] eqn:LG; try discriminate.
    + cbn [obind] in E. unfold nd_insert. rewrite I. destruct (ms_initialize false false (t_p t) (t_xi t) tf it) as [m0| |]; try discriminate. eexists. reflexivity.
    + eexists. reflexivity.
  - unfold nd_insert. rewrite I, E. eexists. reflexivity.
Qed.
(** The tables of one time slice. *)
Lemma slice_tables : forall lg it (f r p xi : list R) nt g t k, (t < nt)%nat -> (k < length r)%nat -> mesh it p -> mesh it xi ->
  length f = (nt * (length r * (length xi * length p)))%nat ->
  (forall t k j i, (t < nt)%nat -> (k < length r)%nat -> (j < length xi)%nat -> (i < length p)%nat -> nth_error f (((t * length r + k) * length xi + j) * length p + i) = Some (g t k i j)) ->
  exists m, made lg it (Table p xi (skipn (t * (length r * length p * length xi) + k * (length p * length xi)) f)) = Ok m /\ holds_table lg it m p xi (g t k).
Proof.
  intros lg it f r p xi nt g t k T K OP OX LF H. apply made_ok; try assumption.
  - rewrite skipn_length, LF. set (n := (length p * length xi)%nat). replace (length r * length p * length xi)%nat with (length r * n)%nat by (unfold n; lia).
    replace (length r * (length xi * length p))%nat with (length r * n)%nat by (unfold n; lia).
    assert (A1 : (S t * (length r * n) <= nt * (length r * n))%nat) by (apply Nat.mul_le_mono_r; lia). assert (A2 : (S k * n <= length r * n)%nat) by (apply Nat.mul_le_mono_r; lia). lia.
  - intros i j I J. rewrite nth_skipn, <- (H t k j i T K J I). f_equal. lia.
Qed.
Lemma table_value : forall (f : list R) np nxi i (g : nat -> nat -> R), (i < np * nxi)%nat ->
  (forall i j, (i < np)%nat -> (j < nxi)%nat -> nth_error f (j * np + i) = Some (g i j)) -> exists a b, (a < np)%nat /\ (b < nxi)%nat /\ nth_error f i = Some (g a b).
Proof.
  intros f np nxi i g I H. destruct (index_split np nxi i I) as (I1 & I2 & I3). exists (i mod np)%nat, (i / np)%nat. split; [exact I1|]. split; [exact I2|]. rewrite I3 at 1. apply H; assumption.
Qed.
Lemma nth_combine : forall (A B : Type) (l : list A) (l' : list B) k,
  nth_error (combine l l') k = match nth_error l k, nth_error l' k with Some a, Some b => Some (a, b) | _, _ => None end.
Proof.
  intros A B. induction l as [|a l IH]; intros l' k; [destruct k; reflexivity|]. destruct l' as [|b l']; [destruct k; cbn; [reflexivity|destruct (nth_error l k); reflexivity]|].
  destruct k as [|k]; [reflexivity|]. cbn. apply IH.
Qed.
