(** Property C123: the memory of integrators. *)
From Coq Require Import List ZArith Reals Lia Lra.
From Verif Require Import Base AlgebraModel IntegratorModel IntegratorSpec IntegratorProofs StepProofs DenseProofs TableauProofs IntegratorUse IntegratorHeapModel IntegratorHeapSpec IntegratorHeapProofs.
Import ListNotations.
Local Open Scope Z_scope.

(** C123.  Integrators that are not copied do not disturb each other: a program with any
    number of them, created, used and destroyed in any order, behaves as if every one were a
    value of its own, and reads or writes no memory it should not. *)
Theorem C123_independent : forall N eps fuel cs, (1 <= N)%nat -> copy_free cs ->
  match do_vcalls N eps fuel [] cs with
  | Some (Ok l) => exists p, do_ocalls N eps fuel no_prog cs = Some (Ok p) /\ seen p = l
  | Some Throw => do_ocalls N eps fuel no_prog cs = Some Throw
  | Some UB => do_ocalls N eps fuel no_prog cs = Some UB
  | None => do_ocalls N eps fuel no_prog cs = None
  end.
Proof.
  intros N eps fuel cs HN Hf. pose proof (ocalls_run N eps fuel cs no_prog HN sep_no_prog Hf) as Q. change (seen no_prog) with (@nil (option rk)) in Q.
  destruct (do_vcalls N eps fuel [] cs) as [[l| |]|]; try exact Q. destruct Q as (p & E & _ & V). exists p. split; assumption.
Qed.
Print Assumptions C123_independent.

Lemma bounded_none : forall N, all_bounded N 0 (seen no_prog).
Proof. intros N k s H. destruct k; discriminate H. Qed.
Lemma start_pointer : forall N eps fuel cs p k o, (1 <= N)%nat -> copy_free cs -> (Z.of_nat (length cs) + 2000 < 2 ^ 32) -> do_ocalls N eps fuel no_prog cs = Some (Ok p) -> object p k o ->
  0 < s_n (k_store (load (p_mem p) o)) -> sep p /\ all_bounded N (Z.of_nat (length cs)) (seen p) /\ exists a, nth 1 (o_ptr o) None = Some a.
Proof.
  intros N eps fuel cs p k o HN Hf Hn H Ho Hp. destruct (ocalls_bounded N eps fuel cs no_prog p 0 HN ltac:(lia) ltac:(lia) Hf sep_no_prog (bounded_none N) H) as (S1 & B1).
  split; [exact S1|]. split; [exact B1|]. destruct (B1 k _ (object_seen p k o Ho)) as (X1 & X2 & X3 & _).
  destruct (nth 1 (o_ptr o) None) as [a|] eqn:E; [exists a; reflexivity|]. exfalso.
  assert (Z0 : b_size (s_sol (k_store (load (p_mem p) o))) = 0).
  { unfold load, with_blocks. cbn [k_store s_sol]. destruct (o_ptr o) as [|p0 [|p1 ps]]; cbn [nth map] in *; [reflexivity|reflexivity|subst p1; reflexivity]. }
  rewrite Z0 in X3. assert (s_alloc (k_store (load (p_mem p) o)) = 0) by (apply eq_sym, Z.mul_eq_0 in X3; lia). lia.
Qed.

(** A pointer returned by SolutionAt or LastSolution reads the point with that index for as
    long as the capacity of the integrator has not grown; afterwards using it is undefined. *)
Theorem C123_pointers : forall N eps fuel cs p k o cs' p' o' i j, (1 <= N)%nat -> copy_free (cs ++ cs') -> Z.of_nat (length (cs ++ cs')) + 2000 < 2 ^ 32 ->
  do_ocalls N eps fuel no_prog cs = Some (Ok p) -> object p k o -> 0 < steps_taken (k_store (load (p_mem p) o)) ->
  do_ocalls N eps fuel p cs' = Some (Ok p') -> object p' k o' ->
  let s := load (p_mem p) o in let s' := load (p_mem p') o' in
  s_alloc (k_store s) <= s_alloc (k_store s') /\
  read_pointer (p_mem p') (solution_pointer N o i) j =
    if s_alloc (k_store s') =? s_alloc (k_store s) then solution_at N (k_store s') i j else UB.
Proof.
  intros N eps fuel cs p k o cs' p' o' i j HN Hf Hn H Ho Hp H' Ho' s s'. rewrite app_length in Hn.
  assert (F1 : copy_free cs) by (intros q Hq; apply (Hf q); apply in_app_iff; left; exact Hq).
  assert (F2 : copy_free cs') by (intros q Hq; apply (Hf q); apply in_app_iff; right; exact Hq).
  destruct (start_pointer N eps fuel cs p k o HN F1 ltac:(lia) H Ho Hp) as (S1 & B1 & a & Ha).
  destruct (pointer_run N eps fuel cs' p p' (Z.of_nat (length cs)) k o o' a HN ltac:(lia) ltac:(lia) F2 S1 B1 H' Ho Ho' Ha) as [(X1 & X2)|(X1 & X2)]; fold s s' in X1.
  - split; [lia|]. rewrite X1, Z.eqb_refl. unfold read_pointer, solution_pointer, solution_at. cbn [fst snd]. rewrite Ha. unfold s'. rewrite (load_sol (p_mem p') o' a X2). cbn [at_pointer].
    destruct (m_blk (p_mem p') a) as [b|]; [reflexivity|]. unfold bread, no_block. cbn [b_size]. rewrite andb_comm. destruct (_ <? 0) eqn:E; [|reflexivity]. apply Z.ltb_lt in E.
    destruct (0 <=? _) eqn:E2; [|reflexivity]. apply Z.leb_le in E2. lia.
  - split; [lia|]. replace (s_alloc (k_store s') =? s_alloc (k_store s)) with false by (symmetry; apply Z.eqb_neq; lia).
    unfold read_pointer, solution_pointer. cbn [fst]. rewrite Ha, X2. reflexivity.
Qed.
Print Assumptions C123_pointers.

(** In a program of at most a thousand calls it stays valid. *)
Theorem C123_thousand : forall N eps fuel cs p k o cs' p' o' i j, (1 <= N)%nat -> copy_free (cs ++ cs') -> (length (cs ++ cs') <= 1000)%nat ->
  do_ocalls N eps fuel no_prog cs = Some (Ok p) -> object p k o -> 0 < steps_taken (k_store (load (p_mem p) o)) ->
  do_ocalls N eps fuel p cs' = Some (Ok p') -> object p' k o' ->
  read_pointer (p_mem p') (solution_pointer N o i) j = solution_at N (k_store (load (p_mem p') o')) i j.
Proof.
  intros N eps fuel cs p k o cs' p' o' i j HN Hf Hn H Ho Hp H' Ho'.
  destruct (C123_pointers N eps fuel cs p k o cs' p' o' i j HN Hf ltac:(lia) H Ho Hp H' Ho') as (M & E). rewrite E. clear E. rewrite app_length in Hn.
  assert (F1 : copy_free cs) by (intros q Hq; apply (Hf q); apply in_app_iff; left; exact Hq).
  assert (F2 : copy_free cs') by (intros q Hq; apply (Hf q); apply in_app_iff; right; exact Hq).
  destruct (start_pointer N eps fuel cs p k o HN F1 ltac:(lia) H Ho Hp) as (S1 & B1 & a & Ha).
  destruct (ocalls_bounded N eps fuel cs' p p' (Z.of_nat (length cs)) HN ltac:(lia) ltac:(lia) F2 S1 B1 H') as (S2 & B2).
  destruct (B1 k _ (object_seen p k o Ho)) as (X1 & X2 & _ & q & X3). destruct (B2 k _ (object_seen p' k o' Ho')) as (Y1 & Y2 & _ & q' & Y3).
  unfold steps_taken in Hp. rewrite X3, Y3 in *. replace (1000 * q' =? 1000 * q) with true; [reflexivity|]. symmetry. apply Z.eqb_eq. lia.
Qed.
Print Assumptions C123_thousand.

(** A copy shares the arrays of the original: what one of them does is seen by the other, and
    once the capacity of one has grown, every use of the solution of the other is undefined. *)
Theorem C123_copies : forall N eps fuel cs p k o c p' o', (1 <= N)%nat -> copy_free cs -> Z.of_nat (length cs) + 2000 < 2 ^ 32 ->
  do_ocalls N eps fuel no_prog cs = Some (Ok p) -> object p k o -> 0 < steps_taken (k_store (load (p_mem p) o)) ->
  do_ocalls N eps fuel p [OCopy k; OCall (length (p_obj p)) c] = Some (Ok p') -> object p' (length (p_obj p)) o' ->
  object p' k o /\
  let s := load (p_mem p) o in let s1 := load (p_mem p') o in let s' := load (p_mem p') o' in
  (s_alloc (k_store s') = s_alloc (k_store s) -> forall i j, solution_at N (k_store s1) i j = solution_at N (k_store s') i j) /\
  (s_alloc (k_store s') <> s_alloc (k_store s) -> forall i j, solution_at N (k_store s1) i j = UB).
Proof.
  intros N eps fuel cs p k o c p' o' HN Hf Hn H Ho Hp H' Ho'.
  destruct (start_pointer N eps fuel cs p k o HN Hf ltac:(lia) H Ho Hp) as ([W L D E8] & B1 & a & Ha).
  cbn [do_ocalls do_ocall] in H'. unfold object in Ho. rewrite Ho in H'. cbn [p_obj p_mem] in H'. rewrite nth_error_app2, Nat.sub_diag in H' by lia. cbn [nth_error] in H'.
  destruct (do_call N eps fuel (load (p_mem p) o) c) as [[s'| |]|] eqn:Ec; try discriminate H'.
  assert (Io : In (Some o) (p_obj p)) by exact (nth_error_In _ _ Ho). pose proof (E8 o Io) as E8o.
  destruct (put_all (p_mem p) (o_ptr o) (blocks_of s')) as [(m & ps)| |] eqn:Ea; try discriminate H'. injection H' as <-. unfold object in Ho'. cbn [p_obj p_mem] in *.
  assert (El : nth_error (p_obj p ++ [Some o]) (length (p_obj p)) = Some (Some o)) by (rewrite nth_error_app2, Nat.sub_diag by lia; reflexivity).
  rewrite (nth_set_at _ _ _ _ _ _ El), Nat.eqb_refl in Ho'. injection Ho' as <-.
  assert (Lk : (k < length (p_obj p))%nat) by (apply nth_error_Some; congruence).
  split. { unfold object. cbn [p_obj]. rewrite (nth_set_at _ _ _ _ _ _ El). destruct (Nat.eqb k (length (p_obj p))) eqn:Q; [apply Nat.eqb_eq in Q; lia|]. rewrite nth_error_app1 by exact Lk. exact Ho. }
  pose proof (nth_error_split _ _ Ho) as (l1 & l2 & Ep & _).
  assert (Lo : Forall (live (p_mem p)) (o_ptr o)).
  { apply Forall_forall. intros q Hq. rewrite Forall_forall in L. apply L. unfold all_ptrs. apply in_flat_map. exists (Some o). split; assumption. }
  assert (Do : NoDup (addrs (o_ptr o))).
  { rewrite Ep, all_ptrs_app in D. cbn [all_ptrs flat_map ptrs] in D. rewrite !addrs_app in D. apply nodup_app_elim in D. destruct D as (_ & D & _). apply nodup_app_elim in D. exact (proj1 D). }
  assert (F : Forall2 (fun q b => at_pointer (p_mem p) q = b \/ 0 < b_size b) (o_ptr o) (blocks_of s')).
  { pose proof (call_blocks _ _ _ _ _ _ HN Ec) as B. rewrite (blocks_load _ _ E8o) in B. revert B. generalize (blocks_of s'). clear. induction (o_ptr o) as [|q qs IH]; intros bs B.
    - inversion B; subst. constructor.
    - destruct bs as [|b bs]; [inversion B|]. cbn [map] in B. constructor; [|apply IH; inversion B; assumption]. assert (Q : b = at_pointer (p_mem p) q \/ 0 < b_size b) by (inversion B; assumption). destruct Q as [->|Q]; [left; reflexivity|right; exact Q]. }
  destruct (put_all_spec _ _ _ W Lo Do F) as (m' & ps' & Ea' & W' & Am & L' & D' & Nx & Len & I' & U' & G'). rewrite Ea in Ea'. injection Ea' as <- <-.
  assert (Ls : load m (Obj ps (rest s')) = s') by (unfold load; cbn [o_ptr o_rest]; rewrite Am; apply with_rest).
  pose proof (B1 k _ (object_seen p k o Ho)) as Hbo. destruct (call_bounded _ _ _ _ _ _ (Z.of_nat (length cs)) HN ltac:(lia) Hbo Ec) as ((_ & _ & Z2 & _) & B2). destruct Hbo as (_ & _ & Z1 & _).
  pose proof Ha as Ha'. apply nth_second in Ha'. destruct (G' 1%nat a _ Ha' (second_block s')) as (G1 & G2). rewrite <- (load_sol (p_mem p) o a Ha) in G1, G2. rewrite Z1, Z2 in G1, G2.
  cbv zeta. rewrite Ls. split.
  - intros E i j. unfold solution_at. rewrite (load_sol m o a Ha). rewrite E in G1. pose proof (G1 eq_refl) as G. apply nth_second in G.
    replace (s_sol (k_store s')) with (at_pointer m (Some a)); [reflexivity|]. rewrite <- (load_sol m (Obj ps (rest s')) a G), Ls. reflexivity.
  - intros E i j. unfold solution_at. rewrite (load_sol m o a Ha). cbn [at_pointer]. rewrite G2 by (intro X; apply Z.mul_reg_l in X; lia).
    unfold bread, no_block. cbn [b_size]. destruct (0 <=? _) eqn:E2; [|reflexivity]. destruct (_ <? 0) eqn:E1; [|reflexivity]. apply Z.leb_le in E2. apply Z.ltb_lt in E1. lia.
Qed.
Print Assumptions C123_copies.

(** No call gives memory back, destruction included. *)
Theorem C123_leak : forall N eps fuel cs p cs' p', do_ocalls N eps fuel no_prog cs = Some (Ok p) -> do_ocalls N eps fuel p cs' = Some (Ok p') ->
  (allocated (p_mem p) <= allocated (p_mem p'))%nat.
Proof.
  intros N eps fuel cs p cs' p' H H'. destruct (ocalls_allocated N eps fuel cs no_prog p (fun a _ => eq_refl) H) as (W & _).
  exact (proj2 (ocalls_allocated N eps fuel cs' p p' W H')).
Qed.
Print Assumptions C123_leak.

(** The equation y' = 0. *)
Definition f_rest : R -> vec -> vec := fun _ _ _ => 0%R.
(** An integrator that took a thousand steps, with a pointer from before. *)
Lemma many_steps : forall eps n, (n <= 1010)%nat -> exists s l t y yp, do_vcalls 1 eps 1 [Some (set_equation (new_rk 1) f_rest)] (OCall 0 (CInit zero_vec) :: repeat (OCall 0 CStep) n) = Some (Ok [Some s]) /\
  rkinv 1 f_rest 1020 s (l ++ [(t, y, yp)]) /\ length l = n /\ k_par s = default_params 1 /\ nth_error (l ++ [(t, y, yp)]) 0 = Some (0%R, zero_vec, f_rest 0%R zero_vec).
Proof.
  intros eps n. assert (Hf : reads_components 1 f_rest) by (intros t v w _ j _; reflexivity).
  assert (HB : (Z.of_nat 1 * (1020 + 1000) < 2 ^ 32)%Z) by reflexivity. 
  assert (App : forall cs cs' l, do_vcalls 1 eps 1 l (cs ++ cs') = match do_vcalls 1 eps 1 l cs with Some (Ok l') => do_vcalls 1 eps 1 l' cs' | x => x end).
  { induction cs as [|c cs IH]; intros cs' l; [reflexivity|]. cbn [List.app do_vcalls]. destruct (do_vcall 1 eps 1 l c) as [[l'| |]|]; try reflexivity. apply IH. }
  induction n as [|n IH]; intro Hn.
  - destruct (init_inv 1 (le_n 1) f_rest 1020 (set_equation (new_rk 1) f_rest) zero_vec HB ltac:(lia) (new_pre 1 (le_n 1) f_rest 1020 1 ltac:(lia))) as (s0 & E0 & I0 & _).
    exists s0, [], 0%R, zero_vec, (f_rest 0%R zero_vec). split; [|split; [exact I0|split; [reflexivity|]]].
    + cbn [repeat do_vcalls do_vcall nth_error do_call]. rewrite E0. reflexivity.
    + unfold rk_initial_value in E0. destruct (initial_value _ _ _ _); try discriminate E0. injection E0 as E0. subst s0. split; reflexivity.
  - destruct (IH ltac:(lia)) as (s & l & t & y & yp & E & Inv & Hl & Hp & Hz).
    destruct (step_point 1 f_rest 1020 eps s l t y yp 0 (le_n 1) Hf HB Inv ltac:(lia) ltac:(lra)) as (s' & q & y' & yp' & E1 & I1 & _ & _ & _ & P1 & _).
    { intros v w Hv Hw a. rewrite Hp. apply zero_error_accepted; [lia|cbn; lra|cbn; lra|]. intros i Hi. unfold a, inner_step, f_rest. cbn [a_yerr].
      rewrite (Hw i Hi). pose proof (traj_derivative 1 f_rest _ (ri_traj _ _ _ _ _ Inv) t y yp ltac:(apply in_app_iff; right; left; reflexivity) i Hi) as X. rewrite X. unfold f_rest. ring. }
    exists s', (l ++ [(t, y, yp)]), (t + c_opt (k_ctrl s))%R, y', yp'. split; [|split; [exact I1|split]].
    + replace (repeat (OCall 0 CStep) (S n)) with (repeat (OCall 0 CStep) n ++ [OCall 0 CStep]) by (symmetry; apply (repeat_cons n (OCall 0 CStep))).
      change (OCall 0 (CInit zero_vec) :: repeat (OCall 0 CStep) n ++ [OCall 0 CStep]) with ((OCall 0 (CInit zero_vec) :: repeat (OCall 0 CStep) n) ++ [OCall 0 CStep]).
      rewrite App, E. cbn [do_vcalls do_vcall nth_error]. rewrite E1. reflexivity.
    + rewrite app_length. cbn [length]. lia.
    + split; [congruence|]. rewrite nth_error_app1 by (rewrite app_length; cbn [length]; lia). exact Hz.
Qed.
Lemma ocalls_app : forall N eps fuel cs cs' p, do_ocalls N eps fuel p (cs ++ cs') = match do_ocalls N eps fuel p cs with Some (Ok p') => do_ocalls N eps fuel p' cs' | x => x end.
Proof. intros N eps fuel. induction cs as [|c cs IH]; intros cs' p; [reflexivity|]. cbn [List.app do_ocalls]. destruct (do_ocall N eps fuel p c) as [[p'| |]|]; try reflexivity. apply IH. Qed.

(** That a returned pointer stays valid during the integration is false. *)
Theorem C123_pointers_refuted : forall eps, exists cs p o cs' p' o', copy_free (cs ++ cs') /\ do_ocalls 1 eps 1 no_prog cs = Some (Ok p) /\ object p 0 o /\
  0 < steps_taken (k_store (load (p_mem p) o)) /\ do_ocalls 1 eps 1 p cs' = Some (Ok p') /\ object p' 0 o' /\ cs' = repeat (OCall 0 CStep) 1010 /\
  read_pointer (p_mem p) (solution_pointer 1 o 0) 0 = Ok 0%R /\ solution_at 1 (k_store (load (p_mem p') o')) 0 0 = Ok 0%R /\
  read_pointer (p_mem p') (solution_pointer 1 o 0) 0 = UB.
Proof.
  intro eps. set (cs := [ONew 1 f_rest; OCall 0 (CInit zero_vec)]). set (cs' := repeat (OCall 0 CStep) 1010).
  assert (Hf : copy_free (cs ++ cs')).
  { intros k Hk. apply in_app_iff in Hk. destruct Hk as [[Hk|[Hk|[]]]|Hk]; try discriminate Hk. apply repeat_spec in Hk. discriminate Hk. }
  destruct (many_steps eps 0 ltac:(lia)) as (s0 & l0 & t0 & y0 & yp0 & E0 & I0 & L0 & _ & Z0).
  destruct (many_steps eps 1010 (le_n _)) as (s1 & l1 & t1 & y1 & yp1 & E1 & I1 & L1 & _ & Z1). fold cs' in E1.
  assert (F1 : copy_free cs) by (intros q Hq; apply (Hf q); apply in_app_iff; left; exact Hq).
  pose proof (C123_independent 1 eps 1 cs (le_n 1) F1) as Q0. pose proof (C123_independent 1 eps 1 (cs ++ cs') (le_n 1) Hf) as Q1.
  replace (do_vcalls 1 eps 1 [] cs) with (Some (Ok [Some s0])) in Q0 by (symmetry; exact E0). destruct Q0 as (p & P0 & V0).
  replace (do_vcalls 1 eps 1 [] (cs ++ cs')) with (Some (Ok [Some s1])) in Q1 by (symmetry; exact E1). destruct Q1 as (p' & P1 & V1).
  rewrite ocalls_app, P0 in P1.
  assert (Lc : length cs = 2%nat) by reflexivity. assert (Lc' : length cs' = 1010%nat) by (unfold cs'; apply repeat_length).
  assert (Ob : forall q s, seen q = [Some s] -> exists o, object q 0 o /\ load (p_mem q) o = s).
  { intros q s V. apply (f_equal (fun l => nth_error l 0)) in V. rewrite seen_nth in V. unfold object. destruct (nth_error (p_obj q) 0) as [[o|]|]; cbn [option_map nth_error] in V; try discriminate V. exists o. split; [reflexivity|congruence]. }
  destruct (Ob p s0 V0) as (o & Ho & Lo). destruct (Ob p' s1 V1) as (o' & Ho' & Lo').
  pose proof (sinv_represents 1 (le_n 1) 1020 _ _ ltac:(reflexivity) (ri_store _ _ _ _ _ I0)) as (R0 & _). pose proof (sinv_represents 1 (le_n 1) 1020 _ _ ltac:(reflexivity) (ri_store _ _ _ _ _ I1)) as (R1 & Rp).
  rewrite app_length, L0 in R0. rewrite app_length, L1 in R1. cbn [length Nat.add] in R0, R1.
  assert (Hp : 0 < steps_taken (k_store (load (p_mem p) o))) by (rewrite Lo, R0; lia).
  assert (Hlen : Z.of_nat (length (cs ++ cs')) + 2000 < 2 ^ 32) by (rewrite app_length, Lc, Lc'; lia).
  destruct (C123_pointers 1 eps 1 cs p 0 o cs' p' o' 0 0 (le_n 1) Hf Hlen P0 Ho Hp P1 Ho') as (_ & E).
  destruct (C123_pointers 1 eps 1 cs p 0 o [] p o 0 0 (le_n 1) ltac:(rewrite app_nil_r; exact F1) ltac:(rewrite app_nil_r, Lc; lia) P0 Ho Hp eq_refl Ho) as (_ & E').
  exists cs, p, o, cs', p', o'. split; [exact Hf|]. split; [exact P0|]. split; [exact Ho|]. split; [exact Hp|]. split; [exact P1|]. split; [exact Ho'|]. split; [reflexivity|].
  assert (Sol : forall s l, rkinv 1 f_rest 1020 s l -> nth_error l 0 = Some (0%R, zero_vec, f_rest 0%R zero_vec) -> solution_at 1 (k_store s) 0 0 = Ok 0%R).
  { intros s l Iv El. pose proof (sinv_represents 1 (le_n 1) 1020 _ _ ltac:(reflexivity) (ri_store _ _ _ _ _ Iv)) as (_ & R). destruct (R 0%nat _ _ _ El) as (_ & R'). exact (proj1 (R' 0%nat ltac:(lia))). }
  rewrite E', Z.eqb_refl, Lo, Lo'. split; [exact (Sol _ _ I0 Z0)|]. split; [exact (Sol _ _ I1 Z1)|].
  rewrite E, Lo, Lo'. destruct (start_pointer 1 eps 1 cs p 0 o (le_n 1) F1 ltac:(rewrite Lc; lia) P0 Ho Hp) as (S1 & B1 & _).
  destruct (ocalls_bounded 1 eps 1 cs' p p' (Z.of_nat (length cs)) (le_n 1) ltac:(lia) ltac:(rewrite Lc, Lc'; lia) ltac:(intros q Hq; apply (Hf q); apply in_app_iff; right; exact Hq) S1 B1 P1) as (_ & B2).
  destruct (B1 0%nat _ (object_seen p 0 o Ho)) as (_ & X2 & _). destruct (B2 0%nat _ (object_seen p' 0 o' Ho')) as (_ & Y2 & _). rewrite Lo in X2. rewrite Lo' in Y2. unfold steps_taken in R1.
  rewrite Lc in X2. replace (s_alloc (k_store s1) =? s_alloc (k_store s0)) with false; [reflexivity|]. symmetry. apply Z.eqb_neq. lia.
Qed.
Print Assumptions C123_pointers_refuted.

(** That a copy is an integrator of its own is false: setting the initial value of the copy
    replaces the solution of the original. *)
Theorem C123_copies_refuted : forall eps,
  let cs := [ONew 1 f_rest; OCall 0 (CInit zero_vec); OCopy 0; OCall 1 (CInit (fun _ => 1%R))] in
  exists p l s s', do_ocalls 1 eps 1 no_prog cs = Some (Ok p) /\ do_vcalls 1 eps 1 [] cs = Some (Ok l) /\
  nth_error (seen p) 0 = Some (Some s) /\ nth_error l 0 = Some (Some s') /\
  solution_at 1 (k_store s) 0 0 = Ok 1%R /\ solution_at 1 (k_store s') 0 0 = Ok 0%R.
Proof.
  intros eps cs.
  assert (Q : match do_ocalls 1 eps 1 no_prog cs with Some (Ok p) => match nth_error (seen p) 0 with Some (Some s) => solution_at 1 (k_store s) 0 0 | _ => UB end | _ => UB end = Ok 1%R) by (vm_compute; reflexivity).
  assert (Q' : match do_vcalls 1 eps 1 [] cs with Some (Ok l) => match nth_error l 0 with Some (Some s) => solution_at 1 (k_store s) 0 0 | _ => UB end | _ => UB end = Ok 0%R) by (vm_compute; reflexivity).
  destruct (do_ocalls 1 eps 1 no_prog cs) as [[p| |]|]; try discriminate Q. destruct (nth_error (seen p) 0) as [[s|]|] eqn:E; try discriminate Q.
  destruct (do_vcalls 1 eps 1 [] cs) as [[l| |]|]; try discriminate Q'. destruct (nth_error l 0) as [[s'|]|] eqn:E'; try discriminate Q'.
  exists p, l, s, s'. split; [reflexivity|]. split; [reflexivity|]. split; [exact E|]. split; [exact E'|]. split; [exact Q|exact Q'].
Qed.
Print Assumptions C123_copies_refuted.

(** That destroying an integrator releases its memory is false. *)
Theorem C123_leak_refuted : forall eps, exists p, do_ocalls 1 eps 1 no_prog [ONew 1 f_rest; OCall 0 (CInit zero_vec); ODestroy 0] = Some (Ok p) /\
  p_obj p = [None] /\ allocated (p_mem p) = 3%nat.
Proof.
  intro eps. set (cs := [ONew 1 f_rest; OCall 0 (CInit zero_vec); ODestroy 0]).
  assert (Q : match do_ocalls 1 eps 1 no_prog cs with Some (Ok p) => Some (map (fun o => match o with Some _ => true | None => false end) (p_obj p), allocated (p_mem p)) | _ => None end = Some ([false], 3%nat)) by (vm_compute; reflexivity).
  destruct (do_ocalls 1 eps 1 no_prog cs) as [[p| |]|]; try discriminate Q. exists p. split; [reflexivity|]. injection Q as Q1 Q2. split; [|exact Q2].
  destruct (p_obj p) as [|[o|] [|x r]]; try discriminate Q1. reflexivity.
Qed.
Print Assumptions C123_leak_refuted.

(** Two integrators side by side; the second one is reset, read through a pointer and destroyed. *)
Example C123_example : forall eps,
  let cs := [ONew 1 f_rest; ONew 1 f_rest; OCall 0 (CInit zero_vec); OCall 1 (CInit (fun _ => 1%R)); OCall 1 (CInit (fun _ => 2%R))] in
  copy_free (cs ++ [ODestroy 1]) /\ exists p o o2 p', do_ocalls 1 eps 1 no_prog cs = Some (Ok p) /\ object p 0 o /\ object p 1 o2 /\
    steps_taken (k_store (load (p_mem p) o)) = 1 /\ solution_at 1 (k_store (load (p_mem p) o)) 0 0 = Ok 0%R /\
    solution_at 1 (k_store (load (p_mem p) o2)) 0 0 = Ok 2%R /\ read_pointer (p_mem p) (solution_pointer 1 o2 0) 0 = Ok 2%R /\
    do_ocalls 1 eps 1 p [ODestroy 1] = Some (Ok p') /\ object p' 0 o.
Proof.
  intros eps cs. split; [intros k Hk; repeat (destruct Hk as [Hk|Hk]; [discriminate Hk|]); destruct Hk|].
  assert (Q : match do_ocalls 1 eps 1 no_prog cs with
              | Some (Ok p) => match nth_error (p_obj p) 0, nth_error (p_obj p) 1 with
                | Some (Some o), Some (Some o2) => Some (steps_taken (k_store (load (p_mem p) o)), solution_at 1 (k_store (load (p_mem p) o)) 0 0,
                    solution_at 1 (k_store (load (p_mem p) o2)) 0 0, read_pointer (p_mem p) (solution_pointer 1 o2 0) 0)
                | _, _ => None end
              | _ => None end = Some (1, Ok 0%R, Ok 2%R, Ok 2%R)) by (vm_compute; reflexivity).
  destruct (do_ocalls 1 eps 1 no_prog cs) as [[p| |]|]; try discriminate Q. destruct (nth_error (p_obj p) 0) as [[o|]|] eqn:E0; try discriminate Q.
  destruct (nth_error (p_obj p) 1) as [[o2|]|] eqn:E1; try discriminate Q. injection Q as Q1 Q2 Q3 Q4.
  exists p, o, o2, (Prog (p_mem p) (set_at (p_obj p) 1 None)). split; [reflexivity|]. split; [exact E0|]. split; [exact E1|]. split; [exact Q1|]. split; [exact Q2|]. split; [exact Q3|]. split; [exact Q4|].
  cbn [do_ocalls do_ocall]. rewrite E1. split; [reflexivity|]. unfold object. cbn [p_obj]. rewrite (nth_set_at _ _ _ _ _ _ E1). exact E0.
Qed.
(** A copy that is used. *)
Example C123_copy_example : forall eps, let cs := [ONew 1 f_rest; OCall 0 (CInit zero_vec)] in
  copy_free cs /\ exists p o p' o', do_ocalls 1 eps 1 no_prog cs = Some (Ok p) /\ object p 0 o /\
  steps_taken (k_store (load (p_mem p) o)) = 1 /\ do_ocalls 1 eps 1 p [OCopy 0; OCall (length (p_obj p)) (CInit zero_vec)] = Some (Ok p') /\ object p' (length (p_obj p)) o'.
Proof.
  intros eps cs. split; [intros k Hk; repeat (destruct Hk as [Hk|Hk]; [discriminate Hk|]); destruct Hk|].
  assert (Q : match do_ocalls 1 eps 1 no_prog cs with
              | Some (Ok p) => match nth_error (p_obj p) 0, do_ocalls 1 eps 1 p [OCopy 0; OCall (length (p_obj p)) (CInit zero_vec)] with
                | Some (Some o), Some (Ok p') => match nth_error (p_obj p') (length (p_obj p)) with Some (Some _) => steps_taken (k_store (load (p_mem p) o)) | _ => 0 end
                | _, _ => 0 end
              | _ => 0 end = 1) by (vm_compute; reflexivity).
  destruct (do_ocalls 1 eps 1 no_prog cs) as [[p| |]|]; try discriminate Q. destruct (nth_error (p_obj p) 0) as [[o|]|] eqn:E0; try discriminate Q.
  destruct (do_ocalls 1 eps 1 p _) as [[p'| |]|] eqn:E1; try discriminate Q. destruct (nth_error (p_obj p') (length (p_obj p))) as [[o'|]|] eqn:E2; try discriminate Q.
  exists p, o, p', o'. split; [reflexivity|]. split; [exact E0|]. split; [exact Q|]. split; [exact E1|exact E2].
Qed.
