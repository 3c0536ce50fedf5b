(** Facts about the lines printed by the progress tracker. *)
From Verif Require Import Base SettingsModel SettingsProofs SdtModel NumText SFileModel SFileProofs TimeModel TimeProofs ProgModel ProgSpec.
From Coq Require Import ZArith Znumtheory Lia.
Local Open Scope Z_scope.

(** ** Times *)
Lemma yellow c s : color_on c ++ s ++ color_off c = painted c (str_of "33") s.
Proof. destruct c; [reflexivity|]. apply app_nil_r. Qed.
Lemma field_painted c b v u :
  show_field c b v u = painted c (str_of "33") ((if ((v <? 10) && b)%bool then str_of "0" else []) ++ show_int v) ++ u.
Proof. unfold show_field. rewrite <- yellow. rewrite <- !app_assoc. reflexivity. Qed.
Lemma time_fields_opp p : time_fields (- p) HOURS =
  (let f := time_fields p HOURS in Fields 0 (- f_hours f) (- f_mins f) (- f_secs f) (- f_msecs f)).
Proof.
  unfold time_fields. cbn [unit_code Z.leb Z.ltb Z.compare Pos.compare Pos.compare_cont]. cbv zeta.
  change (60 * 1000) with 60000. change (60 * 60000) with 3600000. rewrite !Z.mul_0_l, !Z.sub_0_r.
  cbn [f_hours f_mins f_secs f_msecs].
  assert (O : forall a b, b <> 0 -> Z.quot (- a) b = - Z.quot a b) by (intros; apply Z.quot_opp_l; assumption).
  rewrite (O p 3600000) by lia.
  replace (- p - - (p ÷ 3600000) * 3600000) with (- (p - p ÷ 3600000 * 3600000)) by lia.
  rewrite (O _ 60000) by lia.
  match goal with |- context [- ?a - - ?b * 60000] => replace (- a - - b * 60000) with (- (a - b * 60000)) by lia end.
  rewrite (O _ 1000) by lia.
  f_equal. lia.
Qed.
Lemma time_string_parts ms c : time_string ms c HOURS = clock c ms.
Proof.
  destruct (Z_lt_ge_dec ms 0) as [N|P].
  - unfold clock, clock_parts. rewrite (proj2 (Z.ltb_lt ms 0) N). cbn [flat_map fst snd]. rewrite app_nil_r.
    unfold time_string. remember (- ms) as p eqn:Ep. assert (H : 0 <= p) by lia. replace ms with (- p) by lia. clear Ep N ms.
    rewrite time_fields_opp. destruct (time_fields_recompose p HOURS H) as (_ & F1 & F2 & F3 & F4 & F5).
    rewrite time_fields_spec in * by lia. cbn [f_days f_hours f_mins f_secs f_msecs] in *. cbv zeta.
    rewrite Z.rem_opp_l by lia. rewrite Z.rem_mod_nonneg by lia.
    unfold format_time. cbn [f_days f_hours f_mins f_secs f_msecs]. change (0 <? 0) with false. cbn [orb]. cbv iota beta.
    rewrite (proj2 (Z.ltb_ge 0 (- (p / 3600000)))) by lia. rewrite (proj2 (Z.ltb_ge 0 (- (p mod 3600000 / 60000)))) by lia.
    rewrite (proj2 (Z.ltb_ge 0 (- (p mod 60000 / 1000)))) by lia. rewrite (proj2 (Z.ltb_lt (- (p mod 60000 / 1000)) 10)) by lia.
    cbn [andb negb app]. rewrite <- yellow. rewrite <- !app_assoc. reflexivity.
  - assert (H : 0 <= ms) by lia.
    unfold clock, clock_parts. rewrite (proj2 (Z.ltb_ge ms 0)) by lia. unfold time_string.
    rewrite time_fields_spec by lia.
    assert (Q : forall a b, 0 < b -> a < b -> 0 <= a -> a / b = 0) by (intros; apply Z.div_small; lia).
    assert (B : forall v u, show_field c true v u = painted c (str_of "33") (pad2 v) ++ u).
    { intros v u. rewrite field_painted. unfold pad2. rewrite andb_true_r. reflexivity. }
    assert (C : forall v u, show_field c false v u = painted c (str_of "33") (show_int v) ++ u).
    { intros v u. rewrite field_painted. rewrite andb_false_r. reflexivity. }
    destruct (Z.ltb_spec ms 1000) as [A1|A1].
    { rewrite format_time_ms; cbn [f_days f_hours f_mins f_secs f_msecs flat_map fst snd].
      - rewrite Z.mod_small by lia. rewrite <- yellow, app_nil_r, <- !app_assoc. reflexivity.
      - reflexivity.
      - apply Q; lia.
      - rewrite Z.mod_small by lia. apply Q; lia.
      - rewrite Z.mod_small by lia. apply Q; lia. }
    assert (D1 : 1 <= ms / 1000) by (apply Z.div_le_lower_bound; lia).
    destruct (Z.ltb_spec ms 10000) as [A2|A2].
    { rewrite format_time_small; cbn [f_days f_hours f_mins f_secs f_msecs flat_map fst snd].
      - rewrite (Z.mod_small ms 60000) by lia. rewrite C, <- yellow, <- yellow, app_nil_r, <- !app_assoc. reflexivity.
      - reflexivity.
      - apply Q; lia.
      - rewrite Z.mod_small by lia. apply Q; lia.
      - rewrite Z.mod_small by lia. split; [lia|apply Z.div_lt_upper_bound; lia]. }
    assert (D2 : 10 <= ms / 1000) by (apply Z.div_le_lower_bound; lia).
    destruct (Z.ltb_spec ms 60000) as [A3|A3].
    { rewrite format_time_secs; cbn [f_days f_hours f_mins f_secs f_msecs flat_map fst snd].
      - rewrite (Z.mod_small ms 60000) by lia. rewrite C, app_nil_r. reflexivity.
      - reflexivity.
      - apply Q; lia.
      - rewrite Z.mod_small by lia. apply Q; lia.
      - rewrite Z.mod_small by lia. lia. }
    assert (D3 : 1 <= ms / 60000) by (apply Z.div_le_lower_bound; lia).
    destruct (Z.ltb_spec ms 3600000) as [A4|A4].
    { rewrite format_time_mins; cbn [f_days f_hours f_mins f_secs f_msecs flat_map fst snd].
      - rewrite (Z.mod_small ms 3600000) by lia. rewrite C, B, app_nil_r, <- !app_assoc. reflexivity.
      - reflexivity.
      - apply Q; lia.
      - rewrite Z.mod_small by lia. lia. }
    assert (D4 : 1 <= ms / 3600000) by (apply Z.div_le_lower_bound; lia).
    rewrite format_time_hours; cbn [f_days f_hours f_mins f_secs f_msecs flat_map fst snd].
    + rewrite C, !B, app_nil_r, <- !app_assoc. reflexivity.
    + reflexivity.
    + lia.
Qed.

Lemma text_plain c k total ab rel r tr :
  progress_text c false k total (time_string ab c HOURS) (time_string rel c HOURS) r tr = progress_line c k total ab rel None.
Proof. unfold progress_line. rewrite !time_string_parts. destruct c; reflexivity. Qed.
Lemma text_estimate c k total ab rel e :
  progress_text c true k total (time_string ab c HOURS) (time_string rel c HOURS) (time_string e c HOURS) (time_string (e + ab) c HOURS)
  = progress_line c k total ab rel (Some e).
Proof. unfold progress_line. rewrite !time_string_parts, <- !app_assoc. destruct c; reflexivity. Qed.

(** ** Reports *)
Lemma half_product a : (if Z.rem a 2 =? 0 then Z.quot a 2 * (a + 1) else a * Z.quot (a + 1) 2) = a * (a + 1) / 2.
Proof.
  pose proof (Z.quot_rem' a 2) as E. pose proof (Z.quot_rem' (a + 1) 2) as E1.
  destruct (Z.eqb_spec (Z.rem a 2) 0) as [H|H].
  - apply Z.div_unique_exact; [lia|]. rewrite H in E. rewrite E at 1. lia.
  - assert (K : Z.rem (a + 1) 2 = 0).
    { apply Z.rem_mod_eq_0; [lia|]. assert (a mod 2 <> 0) by (intro W; apply H; apply Z.rem_mod_eq_0; [lia|exact W]).
      pose proof (Z.mod_pos_bound a 2 ltac:(lia)). rewrite <- Zplus_mod_idemp_l. replace (a mod 2) with 1 by lia. reflexivity. }
    apply Z.div_unique_exact; [lia|]. rewrite K in E1. rewrite E1 at 1. lia.
Qed.

Definition state_at (clk : nat -> Z) (n total : Z) (colors est : bool) (k : nat) (g : progress) : Prop :=
  at_step n total (Z.of_nat k) (g_tracker g) /\ t_tic (g_start g) = clk 0%nat /\
  t_tic (g_last g) = clk (first_reading est k - 1)%nat /\ g_colors g = colors /\ g_estimate g = est /\ g_reads g = first_reading est k /\
  ((2 <= k)%nat -> est = true -> p_dt1 (g_tracker g) = Some (block clk (k - 1))).

Lemma first_reading_next est k : (1 <= k)%nat -> first_reading est (S k) = (first_reading est k + per_line est)%nat.
Proof. intro H. unfold first_reading. replace (S k - 1)%nat with (S (k - 1)) by lia. rewrite Nat.mul_succ_r. lia. Qed.
Lemma first_reading_two est k : (2 <= first_reading est k)%nat.
Proof. apply Nat.le_add_r. Qed.
Lemma at_step_dt n m k t d : at_step n m k t -> at_step n m k (Tracker (p_nprint t) (p_dprint t) (p_modlevel t) (p_next t) (p_index t) d).
Proof. intro H. exact H. Qed.

Lemma report_at clk n total colors est k g i : 0 <= n -> 0 < total -> (1 <= k)%nat -> state_at clk n total colors est k g ->
  (i < due n total (Z.of_nat k) -> report clk g i = Ok (None, g)) /\
  (due n total (Z.of_nat k) <= i -> exists g', report clk g i = Ok (Some (line_at clk colors est total k), g') /\ state_at clk n total colors est (S k) g').
Proof.
  intros Hn Ht Hk (A & S1 & S2 & C & E & Rd & D). destruct g as [t s l c e r]. cbn [g_tracker g_start g_last g_colors g_estimate g_reads] in *.
  subst c e r. pose proof A as (A1 & A2 & A3 & A4 & A5). unfold report. cbn [g_tracker g_start g_last g_colors g_estimate g_reads].
  unfold critical. rewrite A4. split; intro H.
  - rewrite (proj2 (Z.ltb_lt _ _) H). reflexivity.
  - rewrite (proj2 (Z.ltb_ge _ _) H). cbv iota. rewrite A5.
    pose proof (update_at n total (Z.of_nat k) t Hn Ht ltac:(lia) A) as U. set (t1 := update_next t) in *.
    assert (Dt : p_dt1 t1 = p_dt1 t) by reflexivity.
    unfold print_lines. cbn [g_tracker g_start g_last g_colors g_estimate g_reads].
    unfold passed_time. rewrite S1, S2. change ns_ms with 1000000.
    pose proof (first_reading_two est k) as Two.
    assert (Tot : Z.quot (clk (first_reading est k) - clk 0%nat) 1000000 = since_start clk est k) by reflexivity.
    assert (Rel : Z.quot (clk (S (first_reading est k)) - clk (first_reading est k - 1)%nat) 1000000 = since_line clk est k).
    { unfold since_line, ms_between. do 3 f_equal. lia. }
    rewrite Tot, Rel.
    assert (U' : at_step n total (Z.of_nat (S k)) t1). { replace (Z.of_nat (S k)) with (Z.of_nat k + 1) by lia. exact U. }
    pose proof U as (U1 & _).
    destruct est.
    + assert (Blk : Z.quot (clk (S (S (first_reading true k))) - clk (first_reading true k - 1)%nat) 1000000 = block clk k).
      { unfold block, ms_between. do 3 f_equal. lia. }
      rewrite Blk.
      assert (Est : exists t2, estimate t1 (block clk k) (Z.of_nat k) = Ok (expected clk total k, t2) /\
                at_step n total (Z.of_nat (S k)) t2 /\ p_dt1 t2 = Some (block clk k)).
      { unfold estimate. eexists. rewrite Dt. rewrite <- U1. split; [|split; [rewrite U1; exact (at_step_dt _ _ _ _ (Some (block clk k)) U')|reflexivity]].
        unfold expected. destruct (Z.leb_spec 2 (Z.of_nat k)) as [L|L].
        - rewrite D by (try reflexivity; lia). rewrite half_product. rewrite (proj2 (Nat.leb_gt k 1)) by lia. cbv zeta.
          destruct (0 <? _); [reflexivity|]. rewrite Z.add_0_r. reflexivity.
        - rewrite (proj2 (Nat.leb_le k 1)) by lia. cbv zeta. rewrite Z.mul_0_l. change (0 <? 0) with false. cbv iota. rewrite Z.add_0_r. reflexivity. }
      destruct Est as (t2 & -> & B1 & B2). cbn [obind fst snd].
      pose proof B1 as (N2 & _). rewrite N2. rewrite text_estimate. eexists. split; [reflexivity|].
      unfold state_at. cbn [g_tracker g_start g_last g_colors g_estimate g_reads].
      split; [exact B1|]. split; [exact S1|]. split; [|split; [reflexivity|split; [reflexivity|split]]].
      * unfold timer_reset. cbn [t_tic]. f_equal. rewrite first_reading_next by lia. cbn [per_line]. lia.
      * rewrite first_reading_next by lia. cbn [per_line]. lia.
      * intros _ _. rewrite B2. do 2 f_equal. lia.
    + cbn [obind]. rewrite U1. rewrite text_plain. eexists. split; [reflexivity|].
      unfold state_at. cbn [g_tracker g_start g_last g_colors g_estimate g_reads].
      split; [exact U'|]. split; [exact S1|]. split; [|split; [reflexivity|split; [reflexivity|split]]].
      * unfold timer_reset. cbn [t_tic]. f_equal. rewrite first_reading_next by lia. cbn [per_line]. lia.
      * rewrite first_reading_next by lia. cbn [per_line]. lia.
      * intros _ W. discriminate W.
Qed.

Lemma report_all_at clk n total colors est : 0 <= n -> 0 < total -> forall items k g, (1 <= k)%nat -> state_at clk n total colors est k g ->
  exists g', report_all clk g items = Ok (map (line_at clk colors est total) (seq k (lines_due n total (Z.of_nat k) items)), g') /\
    state_at clk n total colors est (k + lines_due n total (Z.of_nat k) items) g'.
Proof.
  intros Hn Ht. induction items as [|i r IH]; intros k g Hk St.
  - exists g. cbn [lines_due seq map report_all]. rewrite Nat.add_0_r. split; [reflexivity|exact St].
  - destruct (report_at clk n total colors est k g i Hn Ht Hk St) as [Below Above].
    cbn [report_all lines_due]. fold (due n total (Z.of_nat k)). destruct (Z.leb_spec (due n total (Z.of_nat k)) i) as [L|L].
    + destruct (Above L) as (g1 & -> & St1). cbn [obind]. destruct (IH (S k) g1 ltac:(lia) St1) as (g2 & E & St2).
      replace (Z.of_nat (S k)) with (Z.of_nat k + 1) in * by lia. rewrite E. cbn [obind].
      exists g2. split; [reflexivity|]. rewrite <- Nat.add_succ_comm. exact St2.
    + rewrite (Below L). cbn [obind]. destruct (IH k g Hk St) as (g2 & E & St2). rewrite E. cbn [obind]. exists g2. split; [reflexivity|exact St2].
Qed.
Lemma new_progress_at clk n total colors est : 0 <= n -> 0 < total ->
  exists g, new_progress clk n total colors est = Ok g /\ state_at clk n total colors est 1 g.
Proof.
  intros Hn Ht. destruct (new_tracker_at n total Hn Ht) as (t & E & A & D). unfold new_progress. rewrite E. cbn [obind].
  eexists. split; [reflexivity|]. unfold state_at. cbn [g_tracker g_start g_last g_colors g_estimate g_reads].
  split; [exact A|]. split; [reflexivity|]. unfold first_reading. cbn [Nat.sub]. rewrite Nat.mul_0_r. repeat split. intro W; lia.
Qed.
Lemma lines_due_reports n total : 0 <= n -> 0 < total -> forall items k t, 0 <= k -> at_step n total k t ->
  lines_due n total k items = length (fst (reports t items)).
Proof.
  intros Hn Hm. induction items as [|i r IH]; intros k t Hk A; [reflexivity|].
  rewrite reports_cons. pose proof (print_progress_at n total k t i Hn Hm Hk A) as HP.
  cbn [lines_due]. fold (due n total k). destruct (print_progress t i) as [o t1]. destruct (due n total k <=? i).
  - destruct HP as [-> A1]. rewrite (IH (k + 1) t1 ltac:(lia) A1). destruct (reports t1 r). reflexivity.
  - destruct HP as [-> ->]. rewrite (IH k t Hk A). destruct (reports t r). reflexivity.
Qed.

(** ** Times *)
Lemma forward_le clk : forward clk -> forall i j, (i <= j)%nat -> clk i <= clk j.
Proof. intros F i j H. induction H as [|j H IH]; [lia|]. pose proof (F j). lia. Qed.
Lemma ms_nonneg clk i j : forward clk -> (i <= j)%nat -> 0 <= ms_between clk i j.
Proof. intros F H. unfold ms_between. pose proof (forward_le clk F i j H). apply Z.quot_pos; lia. Qed.
Lemma ms_mono clk i j j' : forward clk -> (i <= j)%nat -> (j <= j')%nat -> ms_between clk i j <= ms_between clk i j'.
Proof.
  intros F H H'. unfold ms_between. pose proof (forward_le clk F i j H). pose proof (forward_le clk F j j' H').
  rewrite !Z.quot_div_nonneg by lia. apply Z.div_le_mono; lia.
Qed.
Lemma ms_add clk i j k : forward clk -> (i <= j)%nat -> (j <= k)%nat -> ms_between clk i j + ms_between clk j k <= ms_between clk i k.
Proof.
  intros F H H'. unfold ms_between. pose proof (forward_le clk F i j H). pose proof (forward_le clk F j k H').
  rewrite !Z.quot_div_nonneg by lia. 
  apply Z.div_le_lower_bound; [lia|].
  pose proof (Z.mul_div_le (clk j - clk i) 1000000 ltac:(lia)). pose proof (Z.mul_div_le (clk k - clk j) 1000000 ltac:(lia)). lia.
Qed.
Lemma first_reading_gap est k : (1 <= k)%nat -> (first_reading est k + 1 <= first_reading est (S k) - 1)%nat.
Proof. intro H. rewrite first_reading_next by exact H. destruct est; cbn [per_line]; lia. Qed.
Lemma relative_sum clk est : forward clk -> forall k,
  fold_right Z.add 0 (map (since_line clk est) (seq 1 k)) <= ms_between clk 1 (first_reading est (S k) - 1).
Proof.
  intros F. assert (App : forall l x, fold_right Z.add 0 (l ++ [x]) = fold_right Z.add 0 l + x).
  { induction l as [|a l IH]; intro x; cbn [app fold_right]; [lia|]. rewrite IH. lia. }
  induction k as [|k IH].
  - cbn [seq map fold_right]. unfold first_reading. rewrite Nat.mul_0_r. apply ms_nonneg; [exact F|lia].
  - rewrite seq_S, map_app. cbn [map]. rewrite App. replace (1 + k)%nat with (S k) by lia.
    assert (G := first_reading_gap est (S k) ltac:(lia)). pose proof (first_reading_two est (S k)) as Two.
    pose proof (ms_add clk 1 (first_reading est (S k) - 1) (first_reading est (S (S k)) - 1) F ltac:(lia) ltac:(lia)) as AD.
    pose proof (ms_mono clk (first_reading est (S k) - 1) (first_reading est (S k) + 1) (first_reading est (S (S k)) - 1) F ltac:(lia) ltac:(lia)) as MO.
    unfold since_line at 2. lia.
Qed.

(** ** Colours *)
Lemma show_int_plain_any z : plain (show_int z).
Proof.
  destruct (Z_lt_ge_dec z 0) as [H|H]; [|apply show_int_plain; lia].
  unfold show_int. rewrite (proj2 (Z.ltb_lt z 0) H). intros [W|W]; [discriminate W|].
  apply (show_int_plain (- z) ltac:(lia)). unfold show_int. rewrite (proj2 (Z.ltb_ge (- z) 0)) by lia. exact W.
Qed.
Lemma strip_painted c code s t : plain s -> forallb (fun a => negb (Ascii.eqb a "m"%char)) code = true ->
  strip false (painted c code s ++ t) = s ++ strip false t.
Proof.
  intros P N. destruct c; [|cbn [painted]; now apply strip_plain].
  unfold painted. change (ascii_of_nat 27) with cESC. cbn [app str_of]. 
  assert (K : forall code, forallb (fun a => negb (Ascii.eqb a "m"%char)) code = true -> forall u, strip true (code ++ str_of "m" ++ u) = strip false u).
  { induction code0 as [|a r IH]; intros Hr u; [reflexivity|]. cbn [forallb] in Hr. apply andb_prop in Hr. destruct Hr as [Ha Hr].
    cbn [app strip]. rewrite Ha. now apply IH. }
  replace (strip false (cESC :: _)) with (strip true (code ++ str_of "m" ++ (s ++ cESC :: str_of "[0m") ++ t)).
  - rewrite K by exact N. rewrite <- app_assoc. rewrite strip_plain by exact P. reflexivity.
  - rewrite <- !app_assoc. reflexivity.
Qed.
Lemma parts_plain ms : forall p, In p (clock_parts ms) -> plain (fst p) /\ plain (snd p).
Proof.
  assert (P2 : forall v, plain (pad2 v)).
  { intro v. unfold pad2. apply plain_app; [destruct (v <? 10); apply plain_lit; reflexivity|apply show_int_plain_any]. }
  assert (P3 : forall v, plain (pad3 v)).
  { intro v. unfold pad3. apply plain_app; [destruct (v <? 10); [|destruct (v <? 100)]; apply plain_lit; reflexivity|apply show_int_plain_any]. }
  assert (U : plain (str_of "ms") /\ plain (str_of "s") /\ plain (str_of "m") /\ plain (str_of "h")).
  { repeat split; apply plain_lit; reflexivity. }
  destruct U as (U1 & U2 & U3 & U4). pose proof show_int_plain_any as SP.
  intros p H. unfold clock_parts in H.
  destruct (ms <? 0); [|destruct (ms <? 1000); [|destruct (ms <? 10000); [|destruct (ms <? 60000); [|destruct (ms <? 3600000)]]]];
    repeat (destruct H as [<-|H]; [cbn [fst snd]; auto|]); destruct H.
Qed.
Lemma strip_clock c ms t : strip false (clock c ms ++ t) = clock false ms ++ strip false t.
Proof.
  unfold clock. pose proof (parts_plain ms) as P. induction (clock_parts ms) as [|p l IH]; [reflexivity|].
  cbn [flat_map]. rewrite <- !app_assoc. destruct (P p (or_introl eq_refl)) as [P1 P2].
  rewrite strip_painted by (try exact P1; reflexivity). rewrite strip_plain by exact P2.
  rewrite IH by (intros q Hq; apply P; right; exact Hq). cbn [painted]. rewrite ?app_assoc. reflexivity.
Qed.
Lemma strip_line c k total ab rel e : strip false (progress_line c k total ab rel e) = progress_line false k total ab rel e.
Proof.
  assert (L : forall u v : str, forallb (fun a => negb (Ascii.eqb a cESC)) u = true -> strip false (u ++ v) = u ++ strip false v).
  { intros u v H. apply strip_plain. now apply plain_lit. }
  unfold progress_line. rewrite strip_painted by (try (apply plain_lit; reflexivity); reflexivity). cbn [painted]. f_equal.
  rewrite L by reflexivity. rewrite (strip_plain _ _ (show_int_plain_any k)). rewrite L by reflexivity.
  rewrite (strip_plain _ _ (show_int_plain_any total)). rewrite L by reflexivity. rewrite strip_clock. rewrite L by reflexivity.
  rewrite strip_clock. rewrite L by reflexivity. destruct e as [e|].
  - rewrite <- !app_assoc. rewrite L by reflexivity. rewrite strip_clock. rewrite L by reflexivity. rewrite strip_clock. rewrite L by reflexivity. reflexivity.
  - reflexivity.
Qed.
Lemma line_plain k total ab rel e : ~ In (ascii_of_nat 27) (progress_line false k total ab rel e).
Proof.
  assert (K : forall s, strip false s = s -> plain s).
  { assert (Len : forall s b, (length (strip b s) <= length s)%nat).
    { induction s as [|a s IH]; intro b; [cbn; lia|]. cbn [strip]. destruct b; [pose proof (IH (negb (Ascii.eqb a "m"))); cbn [length]; lia|].
      destruct (Ascii.eqb a cESC); [pose proof (IH true)|pose proof (IH false)]; cbn [length]; lia. }
    induction s as [|a s IH]; intros H; [intros []|]. cbn [strip] in H. destruct (Ascii.eqb_spec a cESC) as [E|E].
    - pose proof (Len s true) as W. rewrite H in W. cbn [length] in W. lia.
    - assert (H' : strip false s = s) by congruence. intros [W|W]; [exact (E W)|exact (IH H' W)]. }
  apply K. apply strip_line.
Qed.
