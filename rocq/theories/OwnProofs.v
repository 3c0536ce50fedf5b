(** Proofs about ownership of settings. *)
From Verif Require Import Base ConfigModel BlockSpec BlockProofs OwnModel OwnSpec.
From Coq Require Import Lia.

Fixpoint oblock_ind' (P : oblock -> Prop)
  (H : forall a par ty n sec sets subs, Forall P subs -> P (OB a par ty n sec sets subs)) (t : oblock) : P t :=
  match t with
  | OB a par ty n sec sets subs =>
      H a par ty n sec sets subs
        ((fix go (l : list oblock) : Forall P l :=
            match l with [] => Forall_nil P | b :: r => Forall_cons b (oblock_ind' P H b) (go r) end) subs)
  end.

Lemma nodup_app : forall A (l m : list A), NoDup (l ++ m) <-> NoDup l /\ NoDup m /\ (forall x, In x l -> ~ In x m).
Proof.
  induction l as [|a r IH]; intro m; simpl.
  - split; [intro H; split; [constructor|split; [exact H|intros x []]]|tauto].
  - split.
    + intro H. inversion H as [|x y Hn Hr]; subst x y. apply IH in Hr. destruct Hr as (H1 & H2 & H3). split; [|split].
      * constructor; [|exact H1]. intro Q. apply Hn. apply in_or_app. left. exact Q.
      * exact H2.
      * intros x [<-|Hx]; [intro Q; apply Hn; apply in_or_app; right; exact Q|apply H3; exact Hx].
    + intros (H1 & H2 & H3). inversion H1 as [|x y Hn Hr]; subst x y. constructor.
      * intro Q. apply in_app_or in Q. destruct Q as [Q|Q]; [contradiction|]. apply (H3 a); [left; reflexivity|exact Q].
      * apply IH. split; [exact Hr|split; [exact H2|]]. intros x Hx. apply H3. right. exact Hx.
Qed.

(** * The representation relation *)

Lemma shows_eq : forall c a par t n s sets subs t' n' s' sets' subs',
  shows c (OB a par t n s sets subs) (CB t' n' s' sets' subs') <->
  t = t' /\ n = n' /\ s = s' /\ map c sets = map Some sets' /\ Forall2 (shows c) subs subs'.
Proof.
  intros. simpl.
  set (go := fix go (l : list oblock) (l' : list cblock) : Prop :=
         match l, l' with
         | [], [] => True
         | b :: r, x :: r' => shows c b x /\ go r r'
         | _, _ => False
         end).
  assert (E : forall l l', go l l' <-> Forall2 (shows c) l l').
  { induction l as [|b r IH]; intros [|x r']; simpl; split; intro H; try constructor; try contradiction; try (inversion H; fail).
    - apply H.
    - apply IH. apply H.
    - inversion H; assumption.
    - inversion H; subst. apply IH. assumption. }
  rewrite (E subs subs'). tauto.
Qed.

Definition ids_eq : forall a par t n s sets subs, ids (OB a par t n s sets subs) = sets ++ flat_map ids subs.
Proof. reflexivity. Qed.

Lemma shows_frame : forall b c c' x, (forall i, In i (ids b) -> c' i = c i) -> shows c b x -> shows c' b x.
Proof.
  induction b as [a par t n s sets subs IH] using oblock_ind'; intros c c' [t' n' s' sets' subs'] F H.
  apply shows_eq in H. destruct H as (H1 & H2 & H3 & H4 & H5). apply shows_eq. repeat split; try assumption.
  - rewrite <- H4. apply map_ext_in. intros i Hi. apply F. rewrite ids_eq. apply in_or_app. left. exact Hi.
  - assert (F2 : forall b, In b subs -> forall i, In i (ids b) -> c' i = c i).
    { intros b Hb i Hi. apply F. rewrite ids_eq. apply in_or_app. right. apply in_flat_map. exists b. split; assumption. }
    clear F H4. revert subs' H5 F2. induction IH as [|b r Hb Hr IHr]; intros subs' H5 F2; inversion H5; subst; constructor.
    + apply (Hb c); [apply F2; left; reflexivity|assumption].
    + apply IHr; [assumption|]. intros b' Hb'. apply F2. right. exact Hb'.
Qed.

Lemma shows_list_frame : forall l c c' l', (forall i, In i (flat_map ids l) -> c' i = c i) ->
  Forall2 (shows c) l l' -> Forall2 (shows c') l l'.
Proof.
  intros l c c' l' F H. induction H as [|b x r r' Hb Hr IH]; constructor.
  - apply shows_frame with (c := c); [|exact Hb]. intros i Hi. apply F. simpl. apply in_or_app. left. exact Hi.
  - apply IH. intros i Hi. apply F. simpl. apply in_or_app. right. exact Hi.
Qed.

Lemma map_Some_In : forall (c : nat -> option setting) l (S : list setting) i, map c l = map Some S -> In i l -> exists s, c i = Some s /\ In s S.
Proof.
  induction l as [|j r IH]; intros [|s S] i E H; simpl in *; try contradiction; try discriminate.
  injection E as E1 E2. destruct H as [<-|H]; [exists s; auto|]. destruct (IH S i E2 H) as (s' & ? & ?). exists s'. auto.
Qed.

Lemma shows_live : forall b c x i, shows c b x -> In i (ids b) -> exists s, c i = Some s.
Proof.
  induction b as [a par t n s sets subs IH] using oblock_ind'; intros c [t' n' s' sets' subs'] i H Hi.
  apply shows_eq in H. destruct H as (_ & _ & _ & H4 & H5). rewrite ids_eq in Hi. apply in_app_or in Hi. destruct Hi as [Hi|Hi].
  - destruct (map_Some_In c sets sets' i H4 Hi) as (v & ? & _). exists v. assumption.
  - clear H4. revert subs' H5 Hi. induction IH as [|b r Hb Hr IHr]; intros subs' H5 Hi; [contradiction|].
    inversion H5; subst. simpl in Hi. apply in_app_or in Hi. destruct Hi as [Hi|Hi].
    + apply (Hb c y i); assumption.
    + apply (IHr l'); assumption.
Qed.

(** * Searching, touching, overwriting *)

Lemma find_cases : forall h sets S name, map (h_set h) sets = map Some S ->
  (has_setting S name = false /\ o_find h sets name = Ok None) \/
  (exists l1 i l2 S1 s S2, sets = l1 ++ i :: l2 /\ S = S1 ++ s :: S2 /\
     map (h_set h) l1 = map Some S1 /\ h_set h i = Some s /\ map (h_set h) l2 = map Some S2 /\
     sname s = name /\ has_setting S1 name = false /\ o_find h sets name = Ok (Some i)).
Proof.
  induction sets as [|i r IH]; intros [|s S] name E; simpl in E; try discriminate.
  - left. split; reflexivity.
  - injection E as E1 E2. simpl. unfold h_get. rewrite E1. simpl. destruct (str_eqb_spec (sname s) name) as [N|N].
    + right. exists [], i, r, [], s, S. repeat split; auto.
    + destruct (IH S name E2) as [[Ha Hb]|(l1 & k & l2 & S1 & s2 & S2 & A & B & C1 & D & F & G & Hh & J)].
      * left. split; [exact Ha|exact Hb].
      * right. exists (i :: l1), k, l2, (s :: S1), s2, S2. subst r S. repeat split; auto.
        -- simpl. rewrite E1, C1. reflexivity.
        -- simpl. destruct (str_eqb_spec (sname s) name); [contradiction|]. exact Hh.
Qed.

Lemma has_mid : forall S1 s S2 name, sname s = name -> has_setting (S1 ++ s :: S2) name = true.
Proof.
  induction S1 as [|x r IH]; intros s S2 name E; simpl.
  - destruct (str_eqb_spec (sname s) name); [reflexivity|contradiction].
  - rewrite (IH _ _ _ E). apply Bool.orb_true_r.
Qed.

Lemma get_mid : forall S1 s S2 name, sname s = name -> has_setting S1 name = false ->
  get_setting (S1 ++ s :: S2) name =
  (S1 ++ mkSet (sname s) (svals s) true :: S2, Some (mkSet (sname s) (svals s) true)).
Proof.
  induction S1 as [|x r IH]; intros s S2 name E H; simpl.
  - destruct (str_eqb_spec (sname s) name); [reflexivity|contradiction].
  - simpl in H. apply Bool.orb_false_iff in H. destruct H as [H1 H2]. rewrite H1, (IH _ _ _ E H2). reflexivity.
Qed.

Lemma over_mid : forall S1 s S2 name v, sname s = name -> has_setting S1 name = false ->
  overwrite_setting (S1 ++ s :: S2) name v = S1 ++ mkSet (sname s) v (stouched s) :: S2.
Proof.
  induction S1 as [|x r IH]; intros s S2 name v E H; simpl.
  - destruct (str_eqb_spec (sname s) name); [reflexivity|contradiction].
  - simpl in H. apply Bool.orb_false_iff in H. destruct H as [H1 H2]. rewrite H1, (IH _ _ _ _ E H2). reflexivity.
Qed.

Lemma put_mid : forall h l1 i l2 (S1 S2 : list setting) s, NoDup (l1 ++ i :: l2) ->
  map (h_set h) l1 = map Some S1 -> map (h_set h) l2 = map Some S2 ->
  map (h_set (h_put h i s)) (l1 ++ i :: l2) = map Some (S1 ++ s :: S2).
Proof.
  intros h l1 i l2 S1 S2 s N E1 E2. apply NoDup_remove_2 in N. rewrite !map_app. simpl. rewrite Nat.eqb_refl.
  assert (K : forall l, ~ In i l -> map (h_set (h_put h i s)) l = map (h_set h) l).
  { intros l Hl. apply map_ext_in. intros k Hk. simpl. destruct (Nat.eqb_spec k i); [subst; contradiction|reflexivity]. }
  pose proof (K l1) as K1. pose proof (K l2) as K2. simpl in K1, K2.
  rewrite K1, K2, E1, E2; [reflexivity| |]; intro Hi; apply N; apply in_or_app; tauto.
Qed.

(** [GetSetting] *)
Lemma o_get_spec : forall h sets S name, map (h_set h) sets = map Some S -> NoDup sets ->
  exists h' o, o_get h sets name = Ok (h', o) /\
    map (h_set h') sets = map Some (fst (get_setting S name)) /\
    (forall i, ~ In i sets -> h_set h' i = h_set h i) /\ h_next h' = h_next h /\ h_bnext h' = h_bnext h /\
    match o with
    | Some i => In i sets /\ h_set h' i = snd (get_setting S name) /\ snd (get_setting S name) <> None
    | None => snd (get_setting S name) = None /\ has_setting S name = false
    end.
Proof.
  intros h sets S name E N. unfold o_get.
  destruct (find_cases h sets S name E) as [[Ha Hb]|(l1 & k & l2 & S1 & s2 & S2 & A & B & C1 & D & F & G & Hh & J)].
  - rewrite Hb. simpl. exists h, None. split; [reflexivity|].
    assert (Q : get_setting S name = (S, None)).
    { clear -Ha. induction S as [|x r IH]; [reflexivity|]. simpl in *. apply Bool.orb_false_iff in Ha. destruct Ha as [H1 H2].
      rewrite H1, (IH H2). reflexivity. }
    rewrite Q. repeat split; auto.
  - rewrite J. simpl. unfold h_get. rewrite D. simpl. subst sets S.
    rewrite (get_mid S1 s2 S2 name G Hh).
    eexists. exists (Some k). split; [reflexivity|]. split; [|split; [|split; [|split]]].
    + apply put_mid; assumption.
    + intros i Hi. simpl. destruct (Nat.eqb_spec i k); [|reflexivity]. subst i. exfalso. apply Hi. apply in_or_app. right. left. reflexivity.
    + reflexivity.
    + reflexivity.
    + split; [apply in_or_app; right; left; reflexivity|]. simpl. rewrite Nat.eqb_refl. split; [reflexivity|discriminate].
Qed.

(** [AddSetting] of an object that is not in the block. *)
Lemma o_add_spec : forall h sets S j t, map (h_set h) sets = map Some S -> NoDup sets -> ~ In j sets ->
  h_set h j = Some t ->
  exists h' sets', o_add h sets j = Ok (h', sets') /\
    map (h_set h') sets' = map Some (add_setting S t) /\
    (forall i, ~ In i sets -> i <> j -> h_set h' i = h_set h i) /\ h_next h' = h_next h /\ h_bnext h' = h_bnext h /\
    (has_setting S (sname t) = true -> sets' = sets) /\
    (has_setting S (sname t) = false -> sets' = sets ++ [j] /\ h' = h).
Proof.
  intros h sets S j t E N Hj Et. unfold o_add, h_get. rewrite Et. simpl. unfold add_setting.
  destruct (find_cases h sets S (sname t) E) as [[Ha Hb]|(l1 & k & l2 & S1 & s2 & S2 & A & B & C1 & D & F & G & Hh & J)].
  - rewrite Hb, Ha. simpl. exists h, (sets ++ [j]). split; [reflexivity|]. repeat split; auto.
    + rewrite !map_app, E. simpl. rewrite Et. reflexivity.
    + discriminate.
  - rewrite J. simpl. unfold o_get. rewrite J. simpl. unfold h_get. rewrite D. simpl.
    assert (Hk : In k sets). { subst sets. apply in_or_app. right. left. reflexivity. }
    assert (Hjk : j <> k) by (intro Q; subst j; contradiction).
    unfold o_overwrite, h_get. simpl. rewrite Nat.eqb_refl. destruct (Nat.eqb_spec j k) as [|_]; [contradiction|].
    rewrite Et. simpl. unfold h_free. simpl. destruct (Nat.eqb_spec j k) as [|_]; [contradiction|]. rewrite Et. simpl.
    assert (P : has_setting S (sname t) = true) by (subst S; apply has_mid; exact G).
    rewrite P. eexists. exists sets. split; [reflexivity|]. split; [|split; [|split; [|split; [|split]]]].
    + subst sets S. rewrite (get_mid S1 s2 S2 _ G Hh). simpl. rewrite over_mid by assumption.
      transitivity (map (h_set (h_put h k (mkSet (sname s2) (svals t) true))) (l1 ++ k :: l2)).
      * apply map_ext_in. intros i Hi. simpl. destruct (Nat.eqb_spec i j) as [|_]; [subst; contradiction|].
        destruct (Nat.eqb_spec i k); reflexivity.
      * apply put_mid; assumption.
    + intros i Hi Hij. simpl. destruct (Nat.eqb_spec i j); [contradiction|]. destruct (Nat.eqb_spec i k); [subst; contradiction|]. reflexivity.
    + reflexivity.
    + reflexivity.
    + reflexivity.
    + discriminate.
Qed.

(** The settings part of [Merge] *)
Lemma o_merge_sets_spec : forall allow theirs h mine M T, map (h_set h) mine = map Some M -> map (h_set h) theirs = map Some T ->
  NoDup mine -> NoDup theirs -> (forall i, In i theirs -> ~ In i mine) -> (allow = true -> NoDup (map sname T)) ->
  exists h' mine' new, o_merge_sets h mine theirs allow = Ok (h', mine', snd (merge_settings M T allow)) /\
    mine' = mine ++ new /\ (forall i, In i new -> In i theirs) /\ (allow = false -> new = []) /\ NoDup mine' /\
    map (h_set h') mine' = map Some (fst (merge_settings M T allow)) /\
    (forall i, ~ In i mine -> h_set h' i = h_set h i) /\ 
    (forall i x, h_set h i = Some x -> ~ In (sname x) (map sname T) -> h_set h' i = h_set h i) /\ 
    (forall i x, In i theirs -> h_set h i = Some x -> (In i new <-> allow = true /\ has_setting M (sname x) = false)) /\
    h_next h' = h_next h /\ h_bnext h' = h_bnext h.
Proof.
  intro allow. induction theirs as [|j r IH]; intros h mine M [|t T] EM ET NM NT Dj U; simpl in ET; try discriminate.
  - exists h, mine, []. simpl. rewrite app_nil_r. repeat split; auto; contradiction.
  - injection ET as Et ET. simpl. unfold h_get. rewrite Et. simpl.
    assert (Hj : ~ In j mine) by (apply Dj; left; reflexivity).
    inversion NT as [|j' r' Hjr Nr]; subst j' r'.
    destruct (find_cases h mine M (sname t) EM) as [[Ha Hb]|(l1 & k & l2 & S1 & s2 & S2 & A & B & C1 & D & F & G & Hh & J)].
    + rewrite Hb, Ha. simpl. destruct allow.
      * destruct (o_add_spec h mine M j t EM NM Hj Et) as (h1 & m1 & E1 & E2 & _ & _ & _ & _ & E3).
        destruct (E3 Ha) as [-> ->]. rewrite E1. simpl.
        assert (NM' : NoDup (mine ++ [j])).
        { apply nodup_app. repeat split; [exact NM|constructor; [intros []|constructor]|intros i Hi [Q|[]]; subst; contradiction]. }
        assert (UT := U eq_refl). simpl in UT. inversion UT as [|x l Hx Hl]; subst x l.
        destruct (IH h (mine ++ [j]) (add_setting M t) T E2 ET NM' Nr) as (h' & mine' & new & R1 & R2 & R3 & R4 & R5 & R6 & R7 & R8 & R9 & R10 & R11).
        { intros i Hi Q. apply in_app_or in Q. destruct Q as [Q|[Q|[]]]; [apply (Dj i); [right; exact Hi|exact Q]|subst; contradiction]. }
        { intros _. exact Hl. }
        exists h', mine', (j :: new). rewrite R1. split; [reflexivity|]. rewrite <- app_assoc in R2. simpl in R2.
        split; [exact R2|]. split; [intros i [Hi|Hi]; [left; exact Hi|right; apply R3; exact Hi]|].
        split; [discriminate|]. split; [exact R5|]. split; [exact R6|]. split; [|split; [|split; [|split]]].
        -- intros i Hi. destruct (Nat.eq_dec i j) as [->|Q].
           ++ apply (R8 j t Et). exact Hx.
           ++ apply R7. intro Q2. apply in_app_or in Q2. destruct Q2 as [Q2|[Q2|[]]]; [contradiction|subst; contradiction].
        -- intros i x Hix Hn. apply (R8 i x Hix). intro Q. apply Hn. right. exact Q.
        -- intros i x Hi Hix. destruct (Nat.eq_dec i j) as [->|Q].
           ++ rewrite Et in Hix. injection Hix as <-. split; [intros _; split; [reflexivity|exact Ha]|intros _; left; reflexivity].
           ++ destruct Hi as [Hi|Hi]; [subst; contradiction|].
              assert (V : has_setting (add_setting M t) (sname x) = has_setting M (sname x)).
              { unfold add_setting. rewrite Ha. clear -Hx Hi Hix ET. induction M as [|m M IHM]; simpl.
                - destruct (map_Some_In _ _ _ _ ET Hi) as (y & Hy & Hin). rewrite Hix in Hy. injection Hy as <-.
                  destruct (str_eqb_spec (sname t) (sname x)); [|reflexivity]. exfalso. apply Hx. rewrite e. apply in_map. exact Hin.
                - rewrite IHM. reflexivity. }
              specialize (R9 i x Hi Hix). rewrite V in R9. simpl. rewrite <- R9.
              split; [intros [Q2|Q2]; [subst; contradiction|exact Q2]|intro Q2; right; exact Q2].
        -- exact R10.
        -- exact R11.
      * destruct (IH h mine M T EM ET NM Nr) as (h' & mine' & new & R1 & R2 & R3 & R4 & R5 & R6 & R7 & R8 & R9 & R10 & R11).
        { intros i Hi. apply Dj. right. exact Hi. }
        { discriminate. }
        rewrite R1. simpl. destruct (merge_settings M T false) as [m u] eqn:Em. simpl in *.
        exists h', mine', new. split; [reflexivity|]. split; [exact R2|]. split; [intros i Hi; right; apply R3; exact Hi|].
        split; [exact R4|]. split; [exact R5|]. split; [exact R6|]. split; [exact R7|]. split; [|split; [|split]].
        -- intros i x Hix Hn. apply (R8 i x Hix). intro Q. apply Hn. right. exact Q.
        -- intros i x Hi Hix. rewrite (R4 eq_refl). split; [intros []|intros [Q _]; discriminate].
        -- exact R10.
        -- exact R11.
    + rewrite J. simpl. unfold o_overwrite, h_get. rewrite Et. simpl. rewrite D. simpl.
      assert (P : has_setting M (sname t) = true) by (subst M; apply has_mid; exact G). rewrite P.
      assert (Hk : In k mine). { subst mine. apply in_or_app. right. left. reflexivity. }
      set (h1 := h_put h k (mkSet (sname s2) (svals t) (stouched s2))).
      assert (EM1 : map (h_set h1) mine = map Some (overwrite_setting M (sname t) (svals t))).
      { subst mine M. rewrite over_mid by assumption. apply put_mid; assumption. }
      assert (ET1 : map (h_set h1) r = map Some T).
      { rewrite <- ET. apply map_ext_in. intros i Hi. simpl. destruct (Nat.eqb_spec i k); [|reflexivity]. subst i. exfalso. apply (Dj k); [right; exact Hi|exact Hk]. }
      destruct (IH h1 mine (overwrite_setting M (sname t) (svals t)) T EM1 ET1 NM Nr) as (h' & mine' & new & R1 & R2 & R3 & R4 & R5 & R6 & R7 & R8 & R9 & R10 & R11).
      { intros i Hi. apply Dj. right. exact Hi. }
      { intro Q. specialize (U Q). simpl in U. inversion U; assumption. }
      exists h', mine', new. split; [exact R1|]. split; [exact R2|]. split; [intros i Hi; right; apply R3; exact Hi|].
      split; [exact R4|]. split; [exact R5|]. split; [exact R6|].
      assert (V : forall n, has_setting (overwrite_setting M (sname t) (svals t)) n = has_setting M n).
      { intro n. clear. induction M as [|m M IHM]; simpl; [reflexivity|]. destruct (str_eqb (sname m) (sname t)); simpl; [reflexivity|]. rewrite IHM. reflexivity. }
      split; [|split; [|split; [|split]]].
      * intros i Hi. rewrite (R7 i Hi). simpl. destruct (Nat.eqb_spec i k); [subst; contradiction|reflexivity].
      * intros i x Hix Hn. assert (i <> k). { intro Q. subst i. rewrite D in Hix. injection Hix as <-. apply Hn. left. symmetry. exact G. }
        assert (Hi1 : h_set h1 i = Some x). { simpl. destruct (Nat.eqb_spec i k); [contradiction|exact Hix]. }
        rewrite (R8 i x Hi1); [rewrite Hi1, Hix; reflexivity|]. intro Q. apply Hn. right. exact Q.
      * intros i x Hi Hix. destruct (Nat.eq_dec i j) as [->|Q].
        -- rewrite Et in Hix. injection Hix as <-. rewrite P. split; [intro Q; exfalso; apply Hjr; apply R3; exact Q|intros [_ Q]; discriminate].
        -- destruct Hi as [Hi|Hi]; [subst; contradiction|].
           assert (i <> k). { intro Q2. subst i. apply (Dj k); [right; exact Hi|exact Hk]. }
           assert (Hi1 : h_set h1 i = Some x). { simpl. destruct (Nat.eqb_spec i k); [contradiction|exact Hix]. }
           rewrite (R9 i x Hi Hi1), V. tauto.
      * exact R10.
      * exact R11.
Qed.

(** * Copying *)

Definition hwf (h : heap) : Prop := forall i x, h_set h i = Some x -> i < h_next h.

Definition fresh_in (h h' : heap) (l : list nat) : Prop :=
  hwf h' /\ h_next h <= h_next h' /\ NoDup l /\ (forall i, i < h_next h -> h_set h' i = h_set h i) /\
  (forall i, In i l -> h_next h <= i < h_next h').

Lemma shows_lt : forall h b x i, hwf h -> shows (h_set h) b x -> In i (ids b) -> i < h_next h.
Proof. intros h b x i W H Hi. destruct (shows_live b _ x i H Hi) as [s E]. exact (W i s E). Qed.

Lemma shows_list_lt : forall h l l' i, hwf h -> Forall2 (shows (h_set h)) l l' -> In i (flat_map ids l) -> i < h_next h.
Proof.
  intros h l l' i W H. induction H as [|b x r r' Hb Hr IH]; simpl; [intros []|]. intro Hi. apply in_app_or in Hi.
  destruct Hi as [Hi|Hi]; [exact (shows_lt h b x i W Hb Hi)|exact (IH Hi)].
Qed.

Lemma o_copy_sets_spec : forall sets h Z, hwf h -> map (h_set h) sets = map Some Z ->
  exists h' l, o_copy_sets h sets = Ok (h', l) /\ map (h_set h') l = map Some (map copy_setting Z) /\ fresh_in h h' l.
Proof.
  induction sets as [|i r IH]; intros h [|s Z] W E; simpl in E; try discriminate.
  - exists h, []. split; [reflexivity|]. split; [reflexivity|]. split; [exact W|]. split; [lia|]. split; [constructor|]. split; [reflexivity|intros i []].
  - injection E as E1 E2. simpl. unfold h_get. rewrite E1. simpl.
    set (h1 := Heap (fun j => if Nat.eqb j (h_next h) then Some (copy_setting s) else h_set h j) (S (h_next h)) (h_bnext h)).
    assert (W1 : hwf h1).
    { intros k x. simpl. destruct (Nat.eqb_spec k (h_next h)); [lia|]. intro Q. specialize (W k x Q). lia. }
    assert (A1 : forall k, k < h_next h -> h_set h1 k = h_set h k).
    { intros k Hk. simpl. destruct (Nat.eqb_spec k (h_next h)); [lia|reflexivity]. }
    assert (E3 : map (h_set h1) r = map Some Z).
    { rewrite <- E2. apply map_ext_in. intros k Hk. apply A1. destruct (map_Some_In _ _ _ _ E2 Hk) as (x & Hx & _). exact (W k x Hx). }
    destruct (IH h1 Z W1 E3) as (h' & l & R1 & R2 & R3 & R4 & R5 & R6 & R7). rewrite R1. simpl in *.
    exists h', (h_next h :: l). split; [reflexivity|]. split; [|split; [exact R3|split; [lia|split; [|split]]]].
    + simpl. rewrite R2. rewrite (R6 (h_next h)) by lia. rewrite Nat.eqb_refl. reflexivity.
    + constructor; [|exact R5]. intro Q. apply R7 in Q. lia.
    + intros k Hk. rewrite R6 by lia. apply A1. exact Hk.
    + intros k [<-|Hk]; [lia|]. apply R7 in Hk. lia.
Qed.

Fixpoint o_copy_list (l : list oblock) (h : heap) : outcome (heap * list oblock) :=
  match l with
  | [] => Ok (h, [])
  | c :: r => obind (o_copy c h) (fun p => obind (o_copy_list r (fst p)) (fun q => Ok (fst q, snd p :: snd q)))
  end.

Lemma o_copy_eq : forall a par t n s sets subs h,
  o_copy (OB a par t n s sets subs) h =
  obind (o_copy_list subs (fst (h_block h))) (fun q =>
  obind (o_copy_sets (fst q) sets) (fun q2 =>
  Ok (fst q2, OB (h_bnext h) par t n (match s with [] => n | _ => s end) (snd q2) (snd q)))).
Proof. reflexivity. Qed.

Lemma fresh_trans : forall h1 h2 h3 l m, fresh_in h1 h2 l -> fresh_in h2 h3 m -> fresh_in h1 h3 (l ++ m).
Proof.
  intros h1 h2 h3 l m (A1 & A2 & A3 & A4 & A5) (B1 & B2 & B3 & B4 & B5). split; [exact B1|]. split; [lia|]. split; [|split].
  - apply nodup_app. split; [exact A3|]. split; [exact B3|]. intros x Hx Hy. apply A5 in Hx. apply B5 in Hy. lia.
  - intros i Hi. rewrite B4 by lia. apply A4. exact Hi.
  - intros i Hi. apply in_app_or in Hi. destruct Hi as [Hi|Hi]; [apply A5 in Hi|apply B5 in Hi]; lia.
Qed.

Lemma fresh_comm : forall h1 h2 l m, fresh_in h1 h2 (l ++ m) -> fresh_in h1 h2 (m ++ l).
Proof.
  intros h1 h2 l m (A1 & A2 & A3 & A4 & A5). split; [exact A1|]. split; [exact A2|]. split; [|split; [exact A4|]].
  - apply nodup_app in A3. destruct A3 as (X & Y & Z). apply nodup_app. split; [exact Y|]. split; [exact X|]. intros x Hx Hy. exact (Z x Hy Hx).
  - intros i Hi. apply A5. apply in_app_or in Hi. apply in_or_app. tauto.
Qed.

Lemma o_copy_spec : forall b h B, hwf h -> shows (h_set h) b B ->
  exists h' b', o_copy b h = Ok (h', b') /\ shows (h_set h') b' (copy_block B) /\ fresh_in h h' (ids b').
Proof.
  induction b as [a par t n s sets subs IH] using oblock_ind'; intros h [t' n' s' sets' subs'] W H.
  apply shows_eq in H. destruct H as (<- & <- & <- & H4 & H5). rewrite o_copy_eq.
  assert (L : forall h, hwf h -> Forall2 (shows (h_set h)) subs subs' ->
    exists h' l, o_copy_list subs h = Ok (h', l) /\ Forall2 (shows (h_set h')) l (map copy_block subs') /\ fresh_in h h' (flat_map ids l)).
  { clear H4 H5 W h. revert subs'. induction IH as [|b r Hb Hr IHr]; intros subs' h W H; inversion H as [|b0 x r0 subs2 Hx Hs]; subst.
    - exists h, []. split; [reflexivity|]. split; [constructor|]. split; [exact W|]. split; [lia|]. split; [constructor|]. split; [reflexivity|intros i []].
    - destruct (Hb h x W Hx) as (h1 & b1 & R1 & R2 & R3). cbn [o_copy_list]. rewrite R1. cbn [obind fst snd].
      assert (R3' := R3). destruct R3' as (F1 & F2 & F3 & F4 & F5).
      assert (Hs1 : Forall2 (shows (h_set h1)) r subs2).
      { apply shows_list_frame with (c := h_set h); [|exact Hs]. intros i Hi. apply F4. apply (shows_list_lt h r subs2 i W Hs Hi). }
      destruct (IHr subs2 h1 F1 Hs1) as (h2 & l2 & S1 & S2 & S3). rewrite S1. cbn [obind fst snd].
      exists h2, (b1 :: l2). split; [reflexivity|]. split.
      + simpl. constructor; [|exact S2]. apply shows_frame with (c := h_set h1); [|exact R2]. intros i Hi. destruct S3 as (_ & _ & _ & S4 & _). apply S4. apply F5 in Hi. lia.
      + simpl. apply fresh_trans with (h2 := h1); assumption. }
  assert (W0 : hwf (fst (h_block h))) by (intros i x Q; exact (W i x Q)).
  destruct (L (fst (h_block h)) W0 H5) as (h1 & l & R1 & R2 & R3). rewrite R1. cbn [obind fst snd].
  assert (R3' := R3). destruct R3' as (F1 & F2 & F3 & F4 & F5).
  assert (E1 : map (h_set h1) sets = map Some sets').
  { rewrite <- H4. apply map_ext_in. intros i Hi. apply F4. destruct (map_Some_In _ _ _ _ H4 Hi) as (x & Hx & _). exact (W i x Hx). }
  destruct (o_copy_sets_spec sets h1 sets' F1 E1) as (h2 & sets2 & S1 & S2 & S3). rewrite S1. cbn [obind fst snd].
  eexists. eexists. split; [reflexivity|]. split.
  - simpl copy_block. apply shows_eq. split; [reflexivity|]. split; [reflexivity|]. split; [destruct s; reflexivity|]. split; [exact S2|].
    apply shows_list_frame with (c := h_set h1); [|exact R2]. intros i Hi. destruct S3 as (_ & _ & _ & S4 & _). apply S4. apply F5 in Hi. lia.
  - rewrite ids_eq. apply fresh_comm. apply fresh_trans with (h2 := h1); [|exact S3]. destruct R3 as (? & ? & ? & ? & ?). split; auto.
Qed.

(** * Merging *)

Lemma shows_key : forall c b x, shows c b x -> okey b = skey x.
Proof. intros c [a par t n s sets subs] [t' n' s' sets' subs'] H. apply shows_eq in H. destruct H as (-> & -> & _). reflexivity. Qed.

Lemma loc_ids : forall p k b, loc p k b -> In k (ids b).
Proof.
  induction p as [|key p IH]; intros k [a par t n s sets subs] H; rewrite ids_eq; apply in_or_app.
  - left. exact H.
  - right. destruct H as (c & Hc & _ & Hl). apply in_flat_map. exists c. split; [exact Hc|apply IH; exact Hl].
Qed.

Definition o_merge_list (allow_new : bool) : list oblock -> heap -> list oblock -> outcome (heap * list oblock * list str) :=
  fix go (theirs : list oblock) (h : heap) (mine : list oblock) : outcome (heap * list oblock * list str) :=
    match theirs with
    | [] => Ok (h, mine, [])
    | b :: r =>
        match o_find_sub mine (ob_type b) (ob_name b) with
        | Some i =>
            match nth_error mine i with
            | Some m =>
                obind (o_merge b h m allow_new) (fun p =>
                obind (go r (fst (fst p)) (upd_nth i (fun _ => snd (fst p)) mine)) (fun q =>
                Ok (fst q, snd p ++ snd q)))
            | None => UB
            end
        | None =>
            if allow_new then
              obind (o_copy b h) (fun p => go r (fst p) (mine ++ [snd p]))
            else obind (go r h mine) (fun q => Ok (fst q, ob_name b :: snd q))
        end
    end.

Lemma o_merge_eq : forall a0 p0 t0 n0 s0 csets csubs h a par t n sec sets subs allow,
  o_merge (OB a0 p0 t0 n0 s0 csets csubs) h (OB a par t n sec sets subs) allow =
  obind (o_merge_sets h sets csets allow) (fun q1 =>
  obind (o_merge_list allow csubs (fst (fst q1)) subs) (fun q2 =>
  Ok (fst (fst q2), OB a par t n sec (snd (fst q1)) (snd (fst q2)), snd q1 ++ snd q2))).
Proof. reflexivity. Qed.

Lemma o_merge_list_cons : forall allow b r h mine,
  o_merge_list allow (b :: r) h mine =
  match o_find_sub mine (ob_type b) (ob_name b) with
  | Some i =>
      match nth_error mine i with
      | Some m =>
          obind (o_merge b h m allow) (fun p =>
          obind (o_merge_list allow r (fst (fst p)) (upd_nth i (fun _ => snd (fst p)) mine)) (fun q =>
          Ok (fst q, snd p ++ snd q)))
      | None => UB
      end
  | None =>
      if allow then obind (o_copy b h) (fun p => o_merge_list allow r (fst p) (mine ++ [snd p]))
      else obind (o_merge_list allow r h mine) (fun q => Ok (fst q, ob_name b :: snd q))
  end.
Proof. reflexivity. Qed.

Lemma merge_subs_cons : forall allow b r mine,
  merge_subs allow (b :: r) mine =
  match find_sub mine (cb_type b) (cb_name b) with
  | Some i =>
      match nth_error mine i with
      | Some m =>
          let (m', u1) := merge b m allow in
          let (mine', u2) := merge_subs allow r (upd_nth i (fun _ => m') mine) in
          (mine', u1 ++ u2)
      | None => merge_subs allow r mine
      end
  | None =>
      if allow then merge_subs allow r (mine ++ [copy_block b])
      else let (mine', u2) := merge_subs allow r mine in (mine', cb_name b :: u2)
  end.
Proof. reflexivity. Qed.

Lemma nth_mid : forall A (l1 : list A) m l2, nth_error (l1 ++ m :: l2) (length l1) = Some m.
Proof. induction l1; intros; [reflexivity|]. simpl. apply IHl1. Qed.

Lemma upd_mid : forall A (l1 : list A) m l2 f, upd_nth (length l1) f (l1 ++ m :: l2) = l1 ++ f m :: l2.
Proof. induction l1; intros; [reflexivity|]. simpl. rewrite IHl1. reflexivity. Qed.

Lemma find_sub_cases : forall c mine Ms t n, Forall2 (shows c) mine Ms ->
  (o_find_sub mine t n = None /\ find_sub Ms t n = None) \/
  (exists l1 m l2 L1 X L2, mine = l1 ++ m :: l2 /\ Ms = L1 ++ X :: L2 /\ Forall2 (shows c) l1 L1 /\ shows c m X /\
     Forall2 (shows c) l2 L2 /\ o_find_sub mine t n = Some (length l1) /\ find_sub Ms t n = Some (length L1) /\ skey X = (t, n)).
Proof.
  intros c mine Ms t n H. induction H as [|m X r r' Hm Hr IH].
  - left. split; reflexivity.
  - assert (K := shows_key _ _ _ Hm). unfold okey, skey in K. injection K as K1 K2. simpl. unfold has_type_and_name. rewrite K1, K2.
    destruct (Nat.eqb (cb_type X) t && str_eqb (cb_name X) n) eqn:E.
    + right. exists [], m, r, [], X, r'. apply Bool.andb_true_iff in E. destruct E as [E1 E2]. apply Nat.eqb_eq in E1. apply str_eqb_eq in E2.
      repeat split; auto. unfold skey. congruence.
    + destruct IH as [[A B]|(l1 & m2 & l2 & L1 & X2 & L2 & A & B & C & D & F & G & J & K)].
      * left. rewrite A, B. split; reflexivity.
      * right. exists (m :: l1), m2, l2, (X :: L1), X2, L2. subst r r'. rewrite G, J. repeat split; auto.
Qed.

Record grown (allow : bool) (h h' : heap) (mi mi' th : list nat) : Prop := {
  gr_wf : hwf h'; gr_next : h_next h <= h_next h'; gr_nd : NoDup mi';
  gr_mono : forall i, In i mi -> In i mi';
  gr_src : forall i, In i mi' -> In i mi \/ (allow = true /\ (In i th \/ h_next h <= i < h_next h')) }.

Definition merge_ok (cb : oblock) : Prop := forall h this allow A B, hwf h -> shows (h_set h) this A -> shows (h_set h) cb B ->
  NoDup (ids this) -> NoDup (ids cb) -> (forall i, In i (ids cb) -> ~ In i (ids this)) -> (allow = true -> uniq B) ->
  exists h' this', o_merge cb h this allow = Ok (h', this', snd (merge B A allow)) /\
    shows (h_set h') this' (fst (merge B A allow)) /\ grown allow h h' (ids this) (ids this') (ids cb) /\
    (forall i, i < h_next h -> ~ In i (ids this) -> h_set h' i = h_set h i) /\
    (allow = true -> forall p k x, loc p k cb -> h_set h k = Some x ->
       (In k (ids this') <-> shared_at A p (sname x))).

Lemma o_merge_list_ok : forall theirs, Forall merge_ok theirs ->
  forall h mine allow Ms Ts, hwf h -> Forall2 (shows (h_set h)) mine Ms -> Forall2 (shows (h_set h)) theirs Ts ->
  NoDup (flat_map ids mine) -> NoDup (flat_map ids theirs) -> (forall i, In i (flat_map ids theirs) -> ~ In i (flat_map ids mine)) ->
  (allow = true -> NoDup (map skey Ts) /\ Forall uniq Ts) ->
  exists h' mine', o_merge_list allow theirs h mine = Ok (h', mine', snd (merge_subs allow Ts Ms)) /\
    Forall2 (shows (h_set h')) mine' (fst (merge_subs allow Ts Ms)) /\
    grown allow h h' (flat_map ids mine) (flat_map ids mine') (flat_map ids theirs) /\
    (forall i, i < h_next h -> (forall m, In m mine -> In (okey m) (map skey Ts) -> ~ In i (ids m)) -> h_set h' i = h_set h i) /\
    (allow = true -> forall b p k x, In b theirs -> loc p k b -> h_set h k = Some x ->
       (In k (flat_map ids mine') <-> exists M, sub_at Ms (okey b) = Some M /\ shared_at M p (sname x))).
Proof.
  intros theirs HF. induction HF as [|b r Hb Hr IH]; intros h mine allow Ms Ts W HM HT NM NT Dj U; inversion HT as [|b0 T r0 Ts' HbT HrT]; subst.
  - exists h, mine. simpl. split; [reflexivity|]. split; [exact HM|]. split; [|split].
    + constructor; auto.
    + reflexivity.
    + intros _ b p k x [].
  - rewrite o_merge_list_cons, merge_subs_cons. assert (Kb := shows_key _ _ _ HbT). unfold okey, skey in Kb. injection Kb as Kt Kn.
    simpl in NT. apply nodup_app in NT. destruct NT as (Nb & Nr & Db).
    assert (Djb : forall i, In i (ids b) -> ~ In i (flat_map ids mine)). { intros i Hi. apply Dj. simpl. apply in_or_app. left. exact Hi. }
    assert (Djr : forall i, In i (flat_map ids r) -> ~ In i (flat_map ids mine)). { intros i Hi. apply Dj. simpl. apply in_or_app. right. exact Hi. }
    assert (Lb : forall i, In i (ids b) -> i < h_next h) by (intros i Hi; exact (shows_lt h b T i W HbT Hi)).
    assert (Lr : forall i, In i (flat_map ids r) -> i < h_next h) by (intros i Hi; exact (shows_list_lt h r Ts' i W HrT Hi)).
    assert (Lm : forall i, In i (flat_map ids mine) -> i < h_next h) by (intros i Hi; exact (shows_list_lt h mine Ms i W HM Hi)).
    rewrite Kt, Kn.
    destruct (find_sub_cases (h_set h) mine Ms (cb_type T) (cb_name T) HM) as [[E1 E2]|(l1 & m & l2 & L1 & X & L2 & A & B & C & D & F & G & J & K)].
    + rewrite E1, E2. assert (Hnone : sub_at Ms (skey T) = None). { apply sub_at_None. apply find_sub_None. exact E2. }
      destruct allow.
      * destruct (o_copy_spec b h T W HbT) as (h1 & b1 & R1 & R2 & R3). rewrite R1. cbn [obind fst snd].
        destruct R3 as (F1 & F2 & F3 & F4 & F5). destruct (U eq_refl) as [U1 U2]. simpl in U1. inversion U1 as [|x0 y0 U3 U4]; subst x0 y0.
        inversion U2 as [|x0 y0 U5 U6]; subst x0 y0.
        destruct (IH h1 (mine ++ [b1]) true (Ms ++ [copy_block T]) Ts') as (h' & mine' & Q1 & Q2 & Q3 & Q4 & Q5).
        { exact F1. }
        { apply Forall2_app; [|constructor; [exact R2|constructor]]. apply shows_list_frame with (c := h_set h); [|exact HM]. intros i Hi. apply F4. apply Lm. exact Hi. }
        { apply shows_list_frame with (c := h_set h); [|exact HrT]. intros i Hi. apply F4. apply Lr. exact Hi. }
        { rewrite flat_map_app. simpl. rewrite app_nil_r. apply nodup_app. split; [exact NM|]. split; [exact F3|]. intros i Hi Hi2. apply Lm in Hi. apply F5 in Hi2. lia. }
        { exact Nr. }
        { intros i Hi. rewrite flat_map_app. simpl. rewrite app_nil_r. intro Q. apply in_app_or in Q. destruct Q as [Q|Q]; [exact (Djr i Hi Q)|]. apply Lr in Hi. apply F5 in Q. lia. }
        { intros _. split; assumption. }
        assert (IC : forall i, In i (flat_map ids (mine ++ [b1])) <-> In i (flat_map ids mine) \/ In i (ids b1)).
        { intro i. rewrite flat_map_app. simpl. rewrite app_nil_r. apply in_app_iff. }
        exists h', mine'. split; [exact Q1|]. split; [exact Q2|]. split; [|split].
        -- destruct Q3 as [G1 G2 G3 G4 G5]. constructor.
           ++ exact G1.
           ++ lia.
           ++ exact G3.
           ++ intros i Hi. apply G4. apply IC. left. exact Hi.
           ++ intros i Hi. apply G5 in Hi. destruct Hi as [Hi|[_ [Hi|Hi]]].
              ** apply IC in Hi. destruct Hi as [Hi|Hi]; [left; exact Hi|]. right. split; [reflexivity|]. right. apply F5 in Hi. lia.
              ** right. split; [reflexivity|]. left. simpl. apply in_or_app. right. exact Hi.
              ** right. split; [reflexivity|]. right. lia.
        -- intros i Hi Hm. rewrite (Q4 i); [apply F4; exact Hi|lia|]. intros m Hm2 Hk. apply in_app_or in Hm2. destruct Hm2 as [Hm2|[<-|[]]].
           ++ apply Hm; [exact Hm2|]. right. exact Hk.
           ++ intro Q. apply F5 in Q. lia.
        -- intros _ b2 p k x [<-|Hb2] Hl Hx.
           ++ assert (Hkb := loc_ids _ _ _ Hl). split.
              ** intro Q. exfalso. destruct Q3 as [G1 G2 G3 G4 G5]. apply G5 in Q. destruct Q as [Q|[_ [Q|Q]]].
                 --- apply IC in Q. destruct Q as [Q|Q]; [exact (Djb k Hkb Q)|]. apply Lb in Hkb. apply F5 in Q. lia.
                 --- exact (Db k Hkb Q).
                 --- apply Lb in Hkb. lia.
              ** intros (M & HM1 & _). rewrite (shows_key _ _ _ HbT) in HM1. congruence.
           ++ assert (Hk2 : In k (flat_map ids r)). { apply in_flat_map. exists b2. split; [exact Hb2|exact (loc_ids _ _ _ Hl)]. }
              assert (Hx1 : h_set h1 k = Some x). { rewrite F4; [exact Hx|apply Lr; exact Hk2]. }
              rewrite (Q5 eq_refl b2 p k x Hb2 Hl Hx1).
              assert (Hne : okey b2 <> skey T).
              { intro Q. apply U3. change (map skey Ts') with (map skey Ts'). rewrite <- Q.
                clear -HrT Hb2. induction HrT as [|y z l l' Hyz Hl IHl]; [contradiction|]. destruct Hb2 as [<-|Hb2]; [left; symmetry; exact (shows_key _ _ _ Hyz)|right; apply IHl; exact Hb2]. }
              assert (HS : sub_at (Ms ++ [copy_block T]) (okey b2) = sub_at Ms (okey b2)).
              { clear -Hne. unfold sub_at. induction Ms as [|c Ms IHm]; cbn [find app].
                - destruct (Nat.eqb (cb_type (copy_block T)) (fst (okey b2)) && str_eqb (cb_name (copy_block T)) (snd (okey b2))) eqn:Q; [|reflexivity].
                  apply key_test in Q. exfalso. apply Hne. rewrite <- Q. destruct T; reflexivity.
                - destruct (Nat.eqb (cb_type c) (fst (okey b2)) && str_eqb (cb_name c) (snd (okey b2))); [reflexivity|exact IHm]. }
              rewrite HS. tauto.
      * destruct (IH h mine false Ms Ts' W HM HrT NM Nr Djr ltac:(discriminate)) as (h' & mine' & Q1 & Q2 & Q3 & Q4 & Q5).
        rewrite Q1. cbn [obind fst snd]. destruct (merge_subs false Ts' Ms) as [mm uu] eqn:Em. simpl in *.
        exists h', mine'. split; [reflexivity|]. split; [exact Q2|]. split; [|split].
        -- destruct Q3 as [G1 G2 G3 G4 G5]. constructor; auto. intros i Hi. apply G5 in Hi. destruct Hi as [Hi|[Hi _]]; [left; exact Hi|discriminate].
        -- intros i Hi Hm. apply Q4; [exact Hi|]. intros m Hm2 Hk. apply Hm; [exact Hm2|right; exact Hk].
        -- discriminate.
    + rewrite G, J. subst mine Ms. rewrite !nth_mid.
      assert (NM' := NM). rewrite flat_map_app in NM'. simpl in NM'. apply nodup_app in NM'. destruct NM' as (N1 & N2 & N3). apply nodup_app in N2. destruct N2 as (N4 & N5 & N6).
      assert (IC : forall m' i, In i (flat_map ids (l1 ++ m' :: l2)) <-> In i (flat_map ids l1) \/ In i (ids m') \/ In i (flat_map ids l2)).
      { intros m' i. rewrite flat_map_app. simpl. rewrite !in_app_iff. tauto. }
      destruct (Hb h m allow X T W D HbT N4 Nb) as (h1 & m' & R1 & R2 & R3 & R4 & R5).
      { intros i Hi Q. apply (Djb i Hi). apply IC. right. left. exact Q. }
      { intro Q. destruct (U Q) as [_ U2]. inversion U2; assumption. }
      rewrite R1. cbn [obind fst snd]. rewrite upd_mid.
      destruct (merge T X allow) as [X' u1] eqn:Em. cbn [fst snd] in *. rewrite upd_mid.
      destruct R3 as [G1 G2 G3 G4 G5].
      assert (KX' : skey X' = skey X). { destruct (merge_head T X allow) as [Q _]. rewrite Em in Q. exact Q. }
      assert (Km' : okey m' = skey X) by (rewrite (shows_key _ _ _ R2); exact KX').
      assert (Km : okey m = skey X) by (exact (shows_key _ _ _ D)).
      destruct (IH h1 (l1 ++ m' :: l2) allow (L1 ++ X' :: L2) Ts') as (h' & mine' & Q1 & Q2 & Q3 & Q4 & Q5).
      { exact G1. }
      { apply Forall2_app; [|constructor].
        - apply shows_list_frame with (c := h_set h); [|exact C]. intros i Hi. apply R4; [apply Lm; apply IC; left; exact Hi|]. intro Q. apply (N3 i Hi). apply in_or_app. left. exact Q.
        - exact R2.
        - apply shows_list_frame with (c := h_set h); [|exact F]. intros i Hi. apply R4; [apply Lm; apply IC; right; right; exact Hi|]. intro Q. exact (N6 i Q Hi). }
      { apply shows_list_frame with (c := h_set h); [|exact HrT]. intros i Hi. apply R4; [apply Lr; exact Hi|]. intro Q. apply (Djr i Hi). apply IC. right. left. exact Q. }
      { rewrite flat_map_app. simpl. apply nodup_app. split; [exact N1|]. split.
        - apply nodup_app. split; [exact G3|]. split; [exact N5|]. intros i Hi Hi2. apply G5 in Hi. destruct Hi as [Hi|[_ [Hi|Hi]]].
          + exact (N6 i Hi Hi2).
          + apply (Djb i Hi). apply IC. right. right. exact Hi2.
          + assert (i < h_next h) by (apply Lm; apply IC; right; right; exact Hi2). lia.
        - intros i Hi Hi2. apply in_app_or in Hi2. destruct Hi2 as [Hi2|Hi2].
          + apply G5 in Hi2. destruct Hi2 as [Hi2|[_ [Hi2|Hi2]]].
            * apply (N3 i Hi). apply in_or_app. left. exact Hi2.
            * apply (Djb i Hi2). apply IC. left. exact Hi.
            * assert (i < h_next h) by (apply Lm; apply IC; left; exact Hi). lia.
          + apply (N3 i Hi). apply in_or_app. right. exact Hi2. }
      { exact Nr. }
      { intros i Hi Q. apply IC in Q. destruct Q as [Q|[Q|Q]].
        - apply (Djr i Hi). apply IC. left. exact Q.
        - apply G5 in Q. destruct Q as [Q|[_ [Q|Q]]].
          + apply (Djr i Hi). apply IC. right. left. exact Q.
          + exact (Db i Q Hi).
          + apply Lr in Hi. lia.
        - apply (Djr i Hi). apply IC. right. right. exact Q. }
      { intro Q. destruct (U Q) as [U1 U2]. simpl in U1. inversion U1; inversion U2; split; assumption. }
      rewrite Q1. cbn [obind fst snd]. destruct (merge_subs allow Ts' (L1 ++ X' :: L2)) as [mm uu] eqn:Em2. cbn [fst snd] in *.
      exists h', mine'. split; [reflexivity|]. split; [exact Q2|]. split; [|split].
      * destruct Q3 as [J1 J2 J3 J4 J5]. constructor.
        -- exact J1.
        -- lia.
        -- exact J3.
        -- intros i Hi. apply J4. apply IC. apply IC in Hi. destruct Hi as [Hi|[Hi|Hi]]; [left; exact Hi|right; left; apply G4; exact Hi|right; right; exact Hi].
        -- intros i Hi. apply J5 in Hi. destruct Hi as [Hi|[Ha [Hi|Hi]]].
           ++ apply IC in Hi. destruct Hi as [Hi|[Hi|Hi]].
              ** left. apply IC. left. exact Hi.
              ** apply G5 in Hi. destruct Hi as [Hi|[Ha [Hi|Hi]]].
                 --- left. apply IC. right. left. exact Hi.
                 --- right. split; [exact Ha|]. left. simpl. apply in_or_app. left. exact Hi.
                 --- right. split; [exact Ha|]. right. lia.
              ** left. apply IC. right. right. exact Hi.
           ++ right. split; [exact Ha|]. left. simpl. apply in_or_app. right. exact Hi.
           ++ right. split; [exact Ha|]. right. lia.
      * intros i Hi Hm.
        assert (Him : ~ In i (ids m)).
        { apply Hm; [apply in_or_app; right; left; reflexivity|]. rewrite Km, K. left. reflexivity. }
        rewrite (Q4 i); [apply R4; assumption|lia|]. intros m2 Hm2 Hk. apply in_app_or in Hm2. destruct Hm2 as [Hm2|[<-|Hm2]].
        -- apply Hm; [apply in_or_app; left; exact Hm2|right; exact Hk].
        -- intro Q. apply G5 in Q. destruct Q as [Q|[Ha [Q|Q]]].
           ++ contradiction.
           ++ destruct (U Ha) as [U1 _]. simpl in U1. inversion U1 as [|x0 y0 U3 U4]; subst. apply U3. rewrite Km', K in Hk. exact Hk.
           ++ lia.
        -- apply Hm; [apply in_or_app; right; right; exact Hm2|right; exact Hk].
      * intros Ha b2 p k x Hb2 Hl Hx. subst allow. destruct (U eq_refl) as [U1 U2]. simpl in U1. inversion U1 as [|x0 y0 U3 U4]; subst x0 y0.
        assert (Hsub : sub_at (L1 ++ X :: L2) (skey T) = Some X).
        { assert (Q := find_sub_at _ _ _ _ J). rewrite nth_mid in Q. exact Q. }
        destruct Hb2 as [<-|Hb2].
        -- assert (Hkb := loc_ids _ _ _ Hl). transitivity (In k (ids m')).
           ++ destruct Q3 as [J1 J2 J3 J4 J5]. split.
              ** intro Q. apply J5 in Q. destruct Q as [Q|[_ [Q|Q]]].
                 --- apply IC in Q. destruct Q as [Q|[Q|Q]]; [|exact Q|]; exfalso; apply (Djb k Hkb); apply IC; tauto.
                 --- exfalso. exact (Db k Hkb Q).
                 --- exfalso. apply Lb in Hkb. lia.
              ** intro Q. apply J4. apply IC. right. left. exact Q.
           ++ rewrite (R5 eq_refl p k x Hl Hx). rewrite (shows_key _ _ _ HbT), Hsub. split.
              ** intro Q. exists X. split; [reflexivity|exact Q].
              ** intros (M & Q & S). injection Q as <-. exact S.
        -- assert (Hk2 : In k (flat_map ids r)). { apply in_flat_map. exists b2. split; [exact Hb2|exact (loc_ids _ _ _ Hl)]. }
           assert (Hx1 : h_set h1 k = Some x).
           { rewrite R4; [exact Hx|apply Lr; exact Hk2|]. intro Q. apply (Djr k Hk2). apply IC. right. left. exact Q. }
           rewrite (Q5 eq_refl b2 p k x Hb2 Hl Hx1).
           assert (Hne : okey b2 <> skey T).
           { intro Q. apply U3. rewrite <- Q.
             clear -HrT Hb2. induction HrT as [|y z l l' Hyz Hl IHl]; [contradiction|]. destruct Hb2 as [<-|Hb2]; [left; symmetry; exact (shows_key _ _ _ Hyz)|right; apply IHl; exact Hb2]. }
           assert (HS : sub_at (L1 ++ X' :: L2) (okey b2) = sub_at (L1 ++ X :: L2) (okey b2)).
           { rewrite <- (upd_mid _ L1 X L2 (fun _ => X')). rewrite (sub_at_upd (L1 ++ X :: L2) (length L1) X X' (okey b2)).
             - destruct (key_dec (skey X) (okey b2)) as [Q|Q]; [|reflexivity]. exfalso. apply Hne. rewrite <- Q, K. reflexivity.
             - apply nth_mid.
             - exact KX'.
             - rewrite K. exact J. }
           rewrite HS. tauto.
Qed.

Lemma o_merge_ok : forall cb, merge_ok cb.
Proof.
  induction cb as [a0 p0 t0 n0 s0 csets csubs IH] using oblock_ind'. intros h [a par t n sec sets subs] allow [t1 n1 s1 sets1 subs1] [t2 n2 s2 sets2 subs2] W HA HB NA NB Dj U.
  apply shows_eq in HA. destruct HA as (<- & <- & <- & A4 & A5). apply shows_eq in HB. destruct HB as (<- & <- & <- & B4 & B5).
  rewrite o_merge_eq, merge_unfold. rewrite ids_eq in *. apply nodup_app in NA. destruct NA as (NA1 & NA2 & NA3).
  rewrite ids_eq in Dj. apply nodup_app in NB. destruct NB as (NB1 & NB2 & NB3).
  assert (UB : allow = true -> NoDup (map sname sets2) /\ NoDup (map skey subs2) /\ Forall uniq subs2).
  { intro Q. specialize (U Q). inversion U; subst. auto. }
  destruct (o_merge_sets_spec allow csets h sets sets1 sets2 A4 B4 NA1 NB1) as (h1 & sets' & new & R1 & R2 & R3 & R4 & R5 & R6 & R7 & R8 & R9 & R10 & R11).
  { intros i Hi Q. apply (Dj i); apply in_or_app; left; assumption. }
  { intro Q. apply UB. exact Q. }
  rewrite R1. cbn [obind fst snd]. destruct (merge_settings sets1 sets2 allow) as [ms um] eqn:Em. cbn [fst snd] in *.
  assert (Ls : forall i, In i sets -> i < h_next h). { intros i Hi. destruct (map_Some_In _ _ _ _ A4 Hi) as (x & Hx & _). exact (W i x Hx). }
  assert (Lc : forall i, In i csets -> i < h_next h). { intros i Hi. destruct (map_Some_In _ _ _ _ B4 Hi) as (x & Hx & _). exact (W i x Hx). }
  assert (Lsub : forall i, In i (flat_map ids subs) -> i < h_next h) by (intros i Hi; exact (shows_list_lt h subs subs1 i W A5 Hi)).
  assert (Lcs : forall i, In i (flat_map ids csubs) -> i < h_next h) by (intros i Hi; exact (shows_list_lt h csubs subs2 i W B5 Hi)).
  assert (W1 : hwf h1).
  { intros i x Hx. rewrite R10. destruct (in_dec Nat.eq_dec i sets) as [Hi|Hi]; [apply Ls; exact Hi|]. rewrite (R7 i Hi) in Hx. exact (W i x Hx). }
  assert (Hs' : forall i, In i sets' <-> In i sets \/ In i new) by (intro i; rewrite R2; apply in_app_iff).
  destruct (o_merge_list_ok csubs IH h1 subs allow subs1 subs2 W1) as (h2 & subs' & Q1 & Q2 & Q3 & Q4 & Q5).
  { apply shows_list_frame with (c := h_set h); [|exact A5]. intros i Hi. apply R7. intro Q. exact (NA3 i Q Hi). }
  { apply shows_list_frame with (c := h_set h); [|exact B5]. intros i Hi. apply R7. intro Q. apply (Dj i); apply in_or_app; [right; exact Hi|left; exact Q]. }
  { exact NA2. }
  { exact NB2. }
  { intros i Hi Q. apply (Dj i); apply in_or_app; right; assumption. }
  { intro Q. destruct (UB Q) as (_ & ? & ?). split; assumption. }
  rewrite Q1. cbn [obind fst snd]. destruct (merge_subs allow subs2 subs1) as [mm uu] eqn:Em2. cbn [fst snd] in *.
  destruct Q3 as [J1 J2 J3 J4 J5].
  assert (FS : forall i, i < h_next h -> ~ In i (flat_map ids subs) -> h_set h2 i = h_set h1 i).
  { intros i Hi Hn. apply Q4; [lia|]. intros m Hm _ Q. apply Hn. apply in_flat_map. exists m. split; assumption. }
  exists h2. eexists. split; [reflexivity|]. split; [|split; [|split]].
  - apply shows_eq. split; [reflexivity|]. split; [reflexivity|]. split; [reflexivity|]. split; [|exact Q2].
    rewrite <- R6. apply map_ext_in. intros i Hi. apply Hs' in Hi. destruct Hi as [Hi|Hi].
    + apply FS; [apply Ls; exact Hi|]. exact (NA3 i Hi).
    + apply FS; [apply Lc; apply R3; exact Hi|]. intro Q. apply (Dj i); apply in_or_app; [left; apply R3; exact Hi|right; exact Q].
  - rewrite !ids_eq. constructor.
    + exact J1.
    + lia.
    + apply nodup_app. split; [exact R5|]. split; [exact J3|]. intros i Hi Q. apply J5 in Q. apply Hs' in Hi.
      assert (i < h_next h) by (destruct Hi as [Hi|Hi]; [apply Ls; exact Hi|apply Lc; apply R3; exact Hi]).
      destruct Q as [Q|[Ha [Q|Q]]]; [| |lia].
      * destruct Hi as [Hi|Hi]; [exact (NA3 i Hi Q)|]. apply (Dj i); apply in_or_app; [left; apply R3; exact Hi|right; exact Q].
      * destruct Hi as [Hi|Hi]; [apply (Dj i); apply in_or_app; [right; exact Q|left; exact Hi]|]. exact (NB3 i (R3 i Hi) Q).
    + intros i Hi. apply in_app_or in Hi. apply in_or_app. destruct Hi as [Hi|Hi]; [left; apply Hs'; left; exact Hi|right; apply J4; exact Hi].
    + intros i Hi. apply in_app_or in Hi. destruct Hi as [Hi|Hi].
      * apply Hs' in Hi. destruct Hi as [Hi|Hi]; [left; apply in_or_app; left; exact Hi|].
        destruct allow; [|rewrite (R4 eq_refl) in Hi; contradiction]. right. split; [reflexivity|]. left. apply in_or_app. left. apply R3. exact Hi.
      * apply J5 in Hi. destruct Hi as [Hi|[Ha [Hi|Hi]]]; [left; apply in_or_app; right; exact Hi|right; split; [exact Ha|left; apply in_or_app; right; exact Hi]|right; split; [exact Ha|right; lia]].
  - intros i Hi Hn. rewrite FS; [apply R7|exact Hi|]; intro Q; apply Hn; apply in_or_app; tauto.
  - intros Ha p k x Hl Hx. subst allow. rewrite ids_eq, in_app_iff. destruct p as [|key p].
    + simpl in Hl. split.
      * intros [Q|Q].
        -- apply Hs' in Q. destruct Q as [Q|Q]; [exfalso; apply (Dj k); apply in_or_app; left; assumption|].
           apply (R9 k x Hl Hx) in Q. destruct Q as [_ Q]. eexists. split; [reflexivity|exact Q].
        -- exfalso. apply J5 in Q. destruct Q as [Q|[_ [Q|Q]]].
           ++ apply (Dj k); apply in_or_app; [left; exact Hl|right; exact Q].
           ++ exact (NB3 k Hl Q).
           ++ apply Lc in Hl. lia.
      * intros (X & HX & Hh). simpl in HX. injection HX as <-. left. apply Hs'. right. apply (R9 k x Hl Hx). split; [reflexivity|exact Hh].
    + destruct Hl as (c & Hc & Hkey & Hl). simpl in Hc.
      assert (Hk2 : In k (flat_map ids csubs)). { apply in_flat_map. exists c. split; [exact Hc|exact (loc_ids _ _ _ Hl)]. }
      assert (Hx1 : h_set h1 k = Some x). { rewrite R7; [exact Hx|]. intro Q. apply (Dj k); apply in_or_app; [right; exact Hk2|left; exact Q]. }
      assert (Hns : ~ In k sets'). { intro Q. apply Hs' in Q. destruct Q as [Q|Q]; [apply (Dj k); apply in_or_app; [right; exact Hk2|left; exact Q]|exact (NB3 k (R3 k Q) Hk2)]. }
      assert (Q6 := Q5 eq_refl c p k x Hc Hl Hx1). rewrite Hkey in Q6.
      transitivity (In k (flat_map ids subs')); [tauto|]. rewrite Q6. unfold shared_at. rewrite block_at_cons. simpl cb_subs.
      split.
      * intros (M & E1 & X & E2 & E3). exists X. rewrite E1. split; assumption.
      * intros (X & E1 & E2). destruct (sub_at subs1 key) as [M|] eqn:E; [|discriminate]. exists M. split; [reflexivity|]. exists X. split; assumption.
Qed.

(** * Places in a tree *)

Lemma at_shows : forall p c b B, shows c b B ->
  match o_at p b, get_at p B with Some x, Some X => shows c x X | None, None => True | _, _ => False end.
Proof.
  induction p as [|i p IH]; intros c b B H; simpl; [exact H|].
  destruct b as [a par t n s sets subs], B as [t' n' s' sets' subs']. apply shows_eq in H. destruct H as (_ & _ & _ & _ & H). simpl.
  assert (Q : match nth_error subs i, nth_error subs' i with Some x, Some X => shows c x X | None, None => True | _, _ => False end).
  { clear -H. revert i. induction H as [|x X r r' Hx Hr IHr]; intros [|i]; simpl; auto. apply IHr. }
  destruct (nth_error subs i) as [x|], (nth_error subs' i) as [X|]; try contradiction; [|exact I]. apply IH. exact Q.
Qed.

Lemma o_at_split : forall i p a par t n s sets subs x, o_at (i :: p) (OB a par t n s sets subs) = Some x ->
  exists l1 m l2, subs = l1 ++ m :: l2 /\ length l1 = i /\ o_at p m = Some x.
Proof.
  intros i p a par t n s sets subs x H. simpl in H. destruct (nth_error subs i) as [m|] eqn:E; [|discriminate].
  destruct (nth_error_split subs i E) as (l1 & l2 & -> & L). exists l1, m, l2. repeat split; assumption.
Qed.

Lemma ids_mid : forall a par t n s sets l1 m l2 i,
  In i (ids (OB a par t n s sets (l1 ++ m :: l2))) <-> In i (ids m) \/ In i sets \/ In i (flat_map ids l1) \/ In i (flat_map ids l2).
Proof. intros. rewrite ids_eq, flat_map_app. simpl. rewrite !in_app_iff. tauto. Qed.

Lemma nodup_mid : forall a par t n s sets l1 m l2,
  NoDup (ids (OB a par t n s sets (l1 ++ m :: l2))) <->
  NoDup (ids m) /\ NoDup (ids (OB a par t n s sets (l1 ++ l2))) /\
  (forall i, In i (ids m) -> ~ In i (ids (OB a par t n s sets (l1 ++ l2)))).
Proof.
  intros. rewrite !ids_eq, !flat_map_app. simpl. rewrite !nodup_app. split.
  - intros (A1 & (A2 & (A3 & A4 & A5) & A6) & A7). repeat split; auto.
    + intros x Hx Q. apply (A6 x Hx). apply in_or_app. tauto.
    + intros x Hx Q. apply (A7 x Hx). apply in_app_or in Q. apply in_or_app. destruct Q; [left; assumption|right; apply in_or_app; right; assumption].
    + intros i Hi Q. apply in_app_or in Q. destruct Q as [Q|Q].
      * apply (A7 i Q). apply in_or_app. right. apply in_or_app. left. exact Hi.
      * apply in_app_or in Q. destruct Q as [Q|Q]; [apply (A6 i Q); apply in_or_app; left; exact Hi|exact (A5 i Hi Q)].
  - intros (A1 & (A2 & (A3 & A4 & A5) & A6) & A7).
    assert (D : forall i, In i (ids m) -> ~ In i sets /\ ~ In i (flat_map ids l1) /\ ~ In i (flat_map ids l2)).
    { intros i Hi. specialize (A7 i Hi). rewrite !in_app_iff in A7. tauto. }
    split; [exact A2|]. split.
    + split; [exact A3|]. split.
      * split; [exact A1|]. split; [exact A4|]. intros x Hx. apply D. exact Hx.
      * intros x Hx Q. apply in_app_or in Q. destruct Q as [Q|Q]; [destruct (D x Q) as (_ & ? & _); contradiction|exact (A5 x Hx Q)].
    + intros x Hx Q. apply in_app_or in Q. destruct Q as [Q|Q]; [apply (A6 x Hx); apply in_or_app; left; exact Q|].
      apply in_app_or in Q. destruct Q as [Q|Q]; [destruct (D x Q) as (? & _); contradiction|apply (A6 x Hx); apply in_or_app; right; exact Q].
Qed.

Lemma at_ids : forall p b x, o_at p b = Some x -> (forall i, In i (ids x) -> In i (ids b)) /\ (NoDup (ids b) -> NoDup (ids x)).
Proof.
  induction p as [|i p IH]; intros [a par t n s sets subs] x H.
  - simpl in H. injection H as <-. split; auto.
  - destruct (o_at_split _ _ _ _ _ _ _ _ _ _ H) as (l1 & m & l2 & -> & _ & H2). destruct (IH m x H2) as [A B]. split.
    + intros k Hk. apply ids_mid. left. apply A. exact Hk.
    + intro N. apply nodup_mid in N. apply B. apply N.
Qed.

Lemma set_ids : forall p b x x', o_at p b = Some x -> NoDup (ids b) -> NoDup (ids x') ->
  (forall i, In i (ids x') -> In i (ids x) \/ ~ In i (ids b)) ->
  NoDup (ids (o_set p x' b)) /\ (forall i, In i (ids (o_set p x' b)) <-> In i (ids x') \/ (In i (ids b) /\ ~ In i (ids x))).
Proof.
  induction p as [|k p IH]; intros [a par t n s sets subs] x x' H N N' D.
  - simpl in H. injection H as <-. simpl o_set. split; [exact N'|]. tauto.
  - destruct (o_at_split _ _ _ _ _ _ _ _ _ _ H) as (l1 & m & l2 & -> & <- & H2). simpl o_set. rewrite upd_mid.
    apply nodup_mid in N. destruct N as (N1 & N2 & N3).
    assert (O : forall i, In i (ids (OB a par t n s sets (l1 ++ l2))) <-> In i sets \/ In i (flat_map ids l1) \/ In i (flat_map ids l2)).
    { intro i. rewrite ids_eq, flat_map_app, !in_app_iff. tauto. }
    destruct (IH m x x' H2 N1 N') as [A B].
    { intros i Hi. destruct (D i Hi) as [Q|Q]; [left; exact Q|right]. intro Q2. apply Q. apply ids_mid. left. exact Q2. }
    assert (Hx := proj1 (at_ids p m x H2)).
    split.
    + apply nodup_mid. split; [exact A|]. split; [exact N2|]. intros i Hi Q. apply B in Hi. destruct Hi as [Hi|[Hi _]]; [|exact (N3 i Hi Q)].
      destruct (D i Hi) as [Q2|Q2]; [exact (N3 i (Hx i Q2) Q)|]. apply Q2. apply ids_mid. right. apply O. exact Q.
    + intro i. rewrite !ids_mid, B, <- (O i). split.
      * intros [[Q|[Q1 Q2]]|Q]; [left; exact Q|right; tauto|right]. split; [tauto|]. intro Q2. exact (N3 i (Hx i Q2) Q).
      * tauto.
Qed.

Lemma set_shows : forall p c c' b B x X x' X', shows c b B -> NoDup (ids b) -> o_at p b = Some x -> get_at p B = Some X ->
  shows c' x' X' -> (forall i, In i (ids b) -> ~ In i (ids x) -> c' i = c i) ->
  shows c' (o_set p x' b) (upd_at p (fun _ => X') B).
Proof.
  induction p as [|k p IH]; intros c c' [a par t n s sets subs] [t' n' s' sets' subs'] x X x' X' H N Hx HX S F.
  - exact S.
  - destruct (o_at_split _ _ _ _ _ _ _ _ _ _ Hx) as (l1 & m & l2 & -> & <- & H2).
    apply shows_eq in H. destruct H as (<- & <- & <- & H4 & H5).
    apply Forall2_app_inv_l in H5. destruct H5 as (L1 & L2' & K1 & K2 & ->). inversion K2 as [|m0 M l0 L2 K3 K4]; subst.
    assert (EL : length L1 = length l1). { clear -K1. induction K1; simpl; [reflexivity|congruence]. }
    simpl in HX. rewrite <- EL in HX. rewrite nth_mid in HX.
    apply nodup_mid in N. destruct N as (N1 & N2 & N3).
    assert (O : forall i, In i (ids (OB a par t n s sets (l1 ++ l2))) <-> In i sets \/ In i (flat_map ids l1) \/ In i (flat_map ids l2)).
    { intro i. rewrite ids_eq, flat_map_app, !in_app_iff. tauto. }
    assert (Hxm := proj1 (at_ids p m x H2)).
    assert (F2 : forall i, In i (ids (OB a par t n s sets (l1 ++ l2))) -> c' i = c i).
    { intros i Hi. apply F; [apply ids_mid; right; apply O; exact Hi|]. intro Q. exact (N3 i (Hxm i Q) Hi). }
    simpl o_set. simpl upd_at. rewrite upd_mid. rewrite <- EL. rewrite upd_mid.
    apply shows_eq. split; [reflexivity|]. split; [reflexivity|]. split; [reflexivity|]. split.
    + rewrite <- H4. apply map_ext_in. intros i Hi. apply F2. apply O. left. exact Hi.
    + apply Forall2_app; [|constructor].
      * apply shows_list_frame with (c := c); [|exact K1]. intros i Hi. apply F2. apply O. right. left. exact Hi.
      * apply (IH c c' m M x X); try assumption. intros i Hi Hn. apply F; [apply ids_mid; left; exact Hi|exact Hn].
      * apply shows_list_frame with (c := c); [|exact K4]. intros i Hi. apply F2. apply O. right. right. exact Hi.
Qed.

(** * Deleting *)

Fixpoint o_delete_list (l : list oblock) (h : heap) : outcome heap :=
  match l with
  | [] => Ok h
  | c :: r => obind (o_delete c h) (fun h2 => o_delete_list r h2)
  end.

Lemma o_delete_eq : forall a par t n s sets subs h,
  o_delete (OB a par t n s sets subs) h = obind (o_free_sets h sets) (fun h1 => o_delete_list subs h1).
Proof. reflexivity. Qed.

Definition freed (h h' : heap) (l : list nat) : Prop :=
  (forall i, ~ In i l -> h_set h' i = h_set h i) /\ (forall i, In i l -> h_set h' i = None) /\ h_next h' = h_next h.

Lemma freed_app : forall h1 h2 h3 l m, freed h1 h2 l -> freed h2 h3 m -> freed h1 h3 (l ++ m).
Proof.
  intros h1 h2 h3 l m (A1 & A2 & A3) (B1 & B2 & B3). split; [|split; [|congruence]].
  - intros i Hi. rewrite B1, A1; [reflexivity| |]; intro Q; apply Hi; apply in_or_app; tauto.
  - intros i Hi. destruct (in_dec Nat.eq_dec i m) as [Q|Q]; [apply B2; exact Q|]. rewrite B1 by exact Q. apply A2.
    apply in_app_or in Hi. tauto.
Qed.

Lemma o_free_sets_spec : forall sets h, NoDup sets -> (forall i, In i sets -> h_set h i <> None) ->
  exists h', o_free_sets h sets = Ok h' /\ freed h h' sets.
Proof.
  induction sets as [|i r IH]; intros h N L.
  - exists h. split; [reflexivity|]. split; [reflexivity|]. split; [intros i []|reflexivity].
  - inversion N as [|i0 r0 N1 N2]; subst. simpl. unfold h_free. destruct (h_set h i) as [s|] eqn:E; [|exfalso; apply (L i); [left; reflexivity|exact E]].
    simpl. set (h1 := Heap (fun j => if Nat.eqb j i then None else h_set h j) (h_next h) (h_bnext h)).
    destruct (IH h1 N2) as (h' & R1 & R2).
    { intros k Hk. simpl. destruct (Nat.eqb_spec k i); [subst; contradiction|]. apply L. right. exact Hk. }
    exists h'. split; [exact R1|]. change (i :: r) with ([i] ++ r). apply freed_app with (h2 := h1); [|exact R2].
    split; [|split; [|reflexivity]].
    + intros k Hk. simpl. destruct (Nat.eqb_spec k i); [subst; exfalso; apply Hk; left; reflexivity|reflexivity].
    + intros k [<-|[]]. simpl. rewrite Nat.eqb_refl. reflexivity.
Qed.

Lemma o_delete_spec : forall b h, NoDup (ids b) -> (forall i, In i (ids b) -> h_set h i <> None) ->
  exists h', o_delete b h = Ok h' /\ freed h h' (ids b).
Proof.
  induction b as [a par t n s sets subs IH] using oblock_ind'; intros h N L. rewrite o_delete_eq. rewrite ids_eq in *.
  apply nodup_app in N. destruct N as (N1 & N2 & N3).
  destruct (o_free_sets_spec sets h N1) as (h1 & R1 & R2). { intros i Hi. apply L. apply in_or_app. left. exact Hi. }
  rewrite R1. cbn [obind].
  assert (Q : forall h, (forall i, In i (flat_map ids subs) -> h_set h i <> None) -> exists h', o_delete_list subs h = Ok h' /\ freed h h' (flat_map ids subs)).
  { clear -IH N2. induction IH as [|b r Hb Hr IHr]; intros h L.
    - exists h. split; [reflexivity|]. split; [reflexivity|]. split; [intros i []|reflexivity].
    - simpl in N2. apply nodup_app in N2. destruct N2 as (M1 & M2 & M3).
      destruct (Hb h M1) as (h1 & S1 & S2). { intros i Hi. apply L. simpl. apply in_or_app. left. exact Hi. }
      destruct (IHr M2 h1) as (h2 & S3 & S4).
      { intros i Hi. destruct S2 as (S2 & _). rewrite S2; [apply L; simpl; apply in_or_app; right; exact Hi|]. intro Q. exact (M3 i Q Hi). }
      exists h2. simpl. rewrite S1. cbn [obind]. split; [exact S3|]. apply freed_app with (h2 := h1); assumption. }
  destruct (Q h1) as (h2 & R3 & R4).
  { intros i Hi. destruct R2 as (R2 & _). rewrite R2; [apply L; apply in_or_app; right; exact Hi|]. intro Q2. exact (N3 i Q2 Hi). }
  exists h2. split; [exact R3|]. apply freed_app with (h2 := h1); assumption.
Qed.

(** * Programs *)

Definition owned (w : oworld) (P : vworld) (given : list nat) (i : nat) : Prop :=
  match ow_root w i, P i with
  | Some b, Some B => shows (h_set (ow_heap w)) b B /\ NoDup (ids b) /\ uniq B
  | None, None => True
  | _, _ => False
  end.

Record Inv (w : oworld) (P : vworld) (given : list nat) : Prop := {
  iv_wf : hwf (ow_heap w);
  iv_root : forall i, ~ In i given -> owned w P given i;
  iv_dis : forall i j b c k, ~ In i given -> ~ In j given -> i <> j -> ow_root w i = Some b -> ow_root w j = Some c ->
    In k (ids b) -> ~ In k (ids c) }.

Lemma inv_root_lt : forall w P g i b k, Inv w P g -> ~ In i g -> ow_root w i = Some b -> In k (ids b) -> k < h_next (ow_heap w).
Proof.
  intros w P g i b k [A B C] Hi E Hk. specialize (B i Hi). unfold owned in B. rewrite E in B. destruct (P i) as [X|]; [|contradiction].
  destruct B as (B1 & _). exact (shows_lt _ b X k A B1 Hk).
Qed.

(** A changed heap and one changed root. *)
Lemma inv_change : forall w P g g' h' i b' B',
  Inv w P g -> hwf h' -> h_next (ow_heap w) <= h_next h' ->
  (forall j, ~ In j g' -> j <> i -> ~ In j g) ->
  (forall j c k, ~ In j g' -> j <> i -> ow_root w j = Some c -> In k (ids c) -> h_set h' k = h_set (ow_heap w) k) ->
  (match b', B' with Some b, Some B => shows (h_set h') b B /\ NoDup (ids b) /\ uniq B | None, None => True | _, _ => False end) ->
  (forall j b c k, ~ In j g' -> j <> i -> ow_root w j = Some c -> b' = Some b -> In k (ids b) -> ~ In k (ids c)) ->
  Inv (OWorld h' (set_root (ow_root w) i b')) (set_root P i B') g'.
Proof.
  intros w P g g' h' i b' B' [A B C] W Hn Hg F Hb D. constructor.
  - exact W.
  - intros j Hj. unfold owned, set_root. simpl. destruct (Nat.eqb_spec j i) as [->|Q]; [exact Hb|].
    specialize (B j (Hg j Hj Q)). unfold owned in B. destruct (ow_root w j) as [c|] eqn:E, (P j) as [X|]; try contradiction; [|exact I].
    destruct B as (B1 & B2 & B3). split; [|split; assumption]. apply shows_frame with (c := h_set (ow_heap w)); [|exact B1].
    intros k Hk. apply (F j c k Hj Q E Hk).
  - intros j1 j2 b c k H1 H2 Hne E1 E2 Hk Hk2. unfold set_root in E1, E2. simpl in E1, E2.
    destruct (Nat.eqb_spec j1 i) as [->|Q1]; destruct (Nat.eqb_spec j2 i) as [->|Q2].
    + contradiction.
    + exact (D j2 b c k H2 Q2 E2 E1 Hk Hk2).
    + exact (D j1 c b k H1 Q1 E1 E2 Hk2 Hk).
    + exact (C j1 j2 b c k (Hg j1 H1 Q1) (Hg j2 H2 Q2) Hne E1 E2 Hk Hk2).
Qed.

(** An operation on one block inside one root. *)
Lemma inv_block : forall w P g g' i b B p x X h' x' X',
  Inv w P g -> ~ In i g -> ow_root w i = Some b -> P i = Some B -> o_at p b = Some x -> get_at p B = Some X ->
  (forall j, ~ In j g' -> ~ In j g) ->
  hwf h' -> h_next (ow_heap w) <= h_next h' -> shows (h_set h') x' X' -> NoDup (ids x') -> uniq X' -> skey X' = skey X ->
  (forall k, In k (ids x') -> In k (ids x) \/ h_next (ow_heap w) <= k \/
     (~ In k (ids b) /\ forall j c, ~ In j g' -> j <> i -> ow_root w j = Some c -> ~ In k (ids c))) ->
  (forall k, k < h_next (ow_heap w) -> ~ In k (ids x) -> h_set h' k = h_set (ow_heap w) k) ->
  Inv (OWorld h' (set_root (ow_root w) i (Some (o_set p x' b)))) (v_put P i p X') g'.
Proof.
  intros w P g g' i b B p x X h' x' X' I Hi Eb EB Ex EX Hg W Hn Sx Nx Ux Kx Src F.
  assert (HB := iv_root _ _ _ I i Hi). unfold owned in HB. rewrite Eb, EB in HB. destruct HB as (S & N & U).
  assert (Lt : forall k, In k (ids b) -> k < h_next (ow_heap w)) by (intros k Hk; exact (inv_root_lt w P g i b k I Hi Eb Hk)).
  assert (Hxb := proj1 (at_ids p b x Ex)).
  destruct (set_ids p b x x' Ex N Nx) as [N' M'].
  { intros k Hk. destruct (Src k Hk) as [Q|[Q|[Q _]]]; [left; exact Q|right|right; exact Q]. intro Q2. apply Lt in Q2. lia. }
  unfold v_put. rewrite EB. apply (inv_change w P g g' h' i (Some (o_set p x' b)) (Some (upd_at p (fun _ => X') B)) I W Hn).
  - intros j Hj _. apply Hg. exact Hj.
  - intros j c k Hj Q E Hk. apply F; [exact (inv_root_lt w P g j c k I (Hg j Hj) E Hk)|].
    intro Q2. apply (iv_dis _ _ _ I j i c b k (Hg j Hj) Hi Q E Eb Hk). apply Hxb. exact Q2.
  - split; [|split].
    + apply (set_shows p (h_set (ow_heap w)) _ b B x X); try assumption. intros k Hk Hnk. apply F; [apply Lt; exact Hk|exact Hnk].
    + exact N'.
    + apply uniq_replace_at with (b := X); assumption.
  - intros j b0 c k Hj Q E Eb0 Hk. injection Eb0 as <-. apply M' in Hk. destruct Hk as [Hk|[Hk _]].
    + destruct (Src k Hk) as [Q2|[Q2|[_ Q2]]].
      * intro Q3. apply (iv_dis _ _ _ I i j b c k Hi (Hg j Hj) (not_eq_sym Q) Eb E); [apply Hxb; exact Q2|exact Q3].
      * intro Q3. assert (k < h_next (ow_heap w)) by (exact (inv_root_lt w P g j c k I (Hg j Hj) E Q3)). lia.
      * exact (Q2 j c Hj Q E).
    + exact (iv_dis _ _ _ I i j b c k Hi (Hg j Hj) (not_eq_sym Q) Eb E Hk).
Qed.

Lemma inv_at : forall w P g i p, Inv w P g -> ~ In i g ->
  match ow_root w i with
  | None => v_at P i p = None /\ P i = None
  | Some b =>
      exists B, P i = Some B /\ v_at P i p = get_at p B /\ shows (h_set (ow_heap w)) b B /\ NoDup (ids b) /\ uniq B /\
      match o_at p b, get_at p B with
      | Some x, Some X => shows (h_set (ow_heap w)) x X /\ NoDup (ids x) /\ uniq X
      | None, None => True
      | _, _ => False
      end
  end.
Proof.
  intros w P g i p I Hi. assert (H := iv_root _ _ _ I i Hi). unfold owned in H. unfold v_at.
  destruct (ow_root w i) as [b|], (P i) as [B|]; try contradiction; [|split; reflexivity].
  destruct H as (S & N & U). exists B. split; [reflexivity|]. split; [reflexivity|]. split; [exact S|]. split; [exact N|]. split; [exact U|].
  assert (Q := at_shows p _ b B S). destruct (o_at p b) as [x|] eqn:Ex, (get_at p B) as [X|] eqn:EX; try contradiction; [|exact Logic.I].
  split; [exact Q|]. split; [apply (at_ids p b x Ex); exact N|]. exact (get_at_uniq p B X U EX).
Qed.

Lemma step_sim : forall w P g o, Inv w P g -> (forall i, uses o i -> ~ In i g) ->
  (match o with OMerge i _ j _ _ => i <> j | _ => True end) ->
  match v_step P o with
  | Some (P', x) => exists w', o_step w o = Ok (w', x) /\ Inv w' P' (given_after g o)
  | None => o_step w o = UB
  end.
Proof.
  intros w P g o I Hu Hne. destruct o as [i ty name sec|i p ty name sec|i p name vals|i p name|i j p|i p j q allow|i]; simpl in Hu, Hne.
  - (* ONew *)
    simpl. eexists. split; [reflexivity|].
    apply (inv_change w P g _ (fst (h_block (ow_heap w))) i _ (Some (CB ty name sec [] [])) I).
    + exact (iv_wf _ _ _ I).
    + simpl. lia.
    + intros j Hj Q Q2. apply Hj. apply in_in_remove; assumption.
    + reflexivity.
    + split; [apply shows_eq; repeat split; constructor|]. split; [constructor|]. constructor; constructor.
    + intros j b c k Hj Q E Eb Hk. injection Eb as <-. contradiction.
  - (* OSub *)
    assert (Hi := Hu i eq_refl). assert (H := inv_at w P g i p I Hi). simpl.
    destruct (ow_root w i) as [b|] eqn:Eb; [|destruct H as [-> _]; reflexivity].
    destruct H as (B & EB & Ev & S & N & U & H). rewrite Ev.
    destruct (o_at p b) as [x|] eqn:Ex, (get_at p B) as [X|] eqn:EX; try contradiction; [|reflexivity].
    destruct H as (Sx & Nx & Ux). 
    destruct x as [a par t n s sets subs], X as [t' n' s' sets' subs']. assert (Sx' := Sx). apply shows_eq in Sx'. destruct Sx' as (<- & <- & <- & S4 & S5).
    assert (UU := uniq_add_sub _ ty name sec Ux).
    unfold o_sub. cbn [h_block]. 
    destruct (find_sub_cases _ subs subs' ty name S5) as [[E1 E2]|(l1 & m & l2 & L1 & Y & L2 & A & B' & C & D & F & G & J & K)].
    + rewrite E1. eexists. split; [reflexivity|]. simpl in UU |- *. rewrite E2 in UU |- *. simpl in UU |- *.
      eapply (inv_block w P g g i b B p _ _ (fst (h_block (ow_heap w)))); try eassumption; try reflexivity.
      * intros j Hj; exact Hj.
      * exact (iv_wf _ _ _ I).
      * apply shows_eq. repeat split; auto. apply Forall2_app; [exact S5|]. constructor; [|constructor]. apply shows_eq. repeat split; constructor.
      * rewrite ids_eq in *. rewrite flat_map_app. simpl. rewrite !app_nil_r. exact Nx.
      * intros k Hk. left. rewrite ids_eq in *. rewrite flat_map_app in Hk. simpl in Hk. rewrite !app_nil_r in Hk. exact Hk.
    + rewrite G. eexists. split; [reflexivity|]. simpl in UU |- *. rewrite J in UU |- *. simpl in UU |- *.
      eapply (inv_block w P g g i b B p _ _ (fst (h_block (ow_heap w)))); try eassumption; try reflexivity.
      * intros j Hj; exact Hj.
      * exact (iv_wf _ _ _ I).
      * intros k Hk. left. exact Hk.
  - (* OAdd *)
    assert (Hi := Hu i eq_refl). assert (H := inv_at w P g i p I Hi). simpl.
    destruct (ow_root w i) as [b|] eqn:Eb; [|destruct H as [-> _]; reflexivity].
    destruct H as (B & EB & Ev & S & N & U & H). rewrite Ev.
    destruct (o_at p b) as [x|] eqn:Ex, (get_at p B) as [X|] eqn:EX; try contradiction; [|reflexivity].
    destruct H as (Sx & Nx & Ux).
    destruct x as [a par t n s sets subs], X as [t' n' s' sets' subs']. assert (Sx' := Sx). apply shows_eq in Sx'. destruct Sx' as (<- & <- & <- & S4 & S5).
    assert (UU := uniq_add_setting _ (mkSet name vals false) Ux). simpl in UU.
    assert (W := iv_wf _ _ _ I). rewrite ids_eq in Nx. assert (Nx' := Nx). apply nodup_app in Nx'. destruct Nx' as (N1 & N2 & N3).
    set (h := ow_heap w) in *. set (j := h_next h).
    set (h1 := Heap (fun k => if Nat.eqb k j then Some (mkSet name vals false) else h_set h k) (Datatypes.S j) (h_bnext h)).
    assert (Lx : forall k, In k (ids (OB a par t n s sets subs)) -> k < j) by (intros k Hk; exact (shows_lt h _ _ k W Sx Hk)).
    assert (A1 : forall k, k < j -> h_set h1 k = h_set h k). { intros k Hk. simpl. destruct (Nat.eqb_spec k j); [lia|reflexivity]. }
    assert (Ls : forall k, In k sets -> k < j) by (intros k Hk; apply Lx; rewrite ids_eq; apply in_or_app; left; exact Hk).
    destruct (o_add_spec h1 sets sets' j (mkSet name vals false)) as (h2 & sets2 & R1 & R2 & R3 & R4 & R5 & R6 & R7).
    { rewrite <- S4. apply map_ext_in. intros k Hk. apply A1. apply Ls. exact Hk. }
    { exact N1. }
    { intro Q. apply Ls in Q. lia. }
    { simpl. rewrite Nat.eqb_refl. reflexivity. }
    cbn [sname] in R6, R7. rewrite R1. cbn [obind fst snd]. eexists. split; [reflexivity|].
    assert (Hsub : forall k, In k (flat_map ids subs) -> k < j /\ ~ In k sets).
    { intros k Hk. split; [apply Lx; rewrite ids_eq; apply in_or_app; right; exact Hk|]. intro Q. exact (N3 k Q Hk). }
    assert (Hin : forall k, In k sets2 -> In k sets \/ k = j).
    { intros k Hk. destruct (has_setting sets' name); [rewrite R6 in Hk by reflexivity; left; exact Hk|].
      destruct (R7 eq_refl) as [-> _]. apply in_app_or in Hk. destruct Hk as [Hk|[Hk|[]]]; [left; exact Hk|right; symmetry; exact Hk]. }
    assert (F2 : forall k, k < j -> ~ In k sets -> h_set h2 k = h_set h k).
    { intros k Hk Hn. rewrite R3; [apply A1; exact Hk|exact Hn|lia]. }
    assert (N2' : NoDup sets2).
    { destruct (has_setting sets' name); [rewrite R6 by reflexivity; exact N1|]. destruct (R7 eq_refl) as [-> _].
      apply nodup_app. split; [exact N1|]. split; [constructor; [intros []|constructor]|]. intros k Hk [<-|[]]. apply Ls in Hk. lia. }
    eapply (inv_block w P g g i b B p _ _ h2); try eassumption; try reflexivity.
    + intros j0 Hj; exact Hj.
    + intros k y Hy. rewrite R4. simpl. destruct (Nat.lt_ge_cases k (Datatypes.S j)) as [Q|Q]; [exact Q|]. exfalso.
      rewrite R3 in Hy; [|intro Q2; apply Ls in Q2; lia|lia]. simpl in Hy. destruct (Nat.eqb_spec k j); [lia|]. apply W in Hy. fold j in Hy. lia.
    + rewrite R4. simpl. fold h. fold j. lia.
    + apply shows_eq. repeat split; auto. apply shows_list_frame with (c := h_set h); [|exact S5].
      intros k Hk. apply Hsub in Hk. apply F2; tauto.
    + rewrite ids_eq. apply nodup_app. split; [exact N2'|]. split; [exact N2|]. intros k Hk Hk2. apply Hsub in Hk2.
      apply Hin in Hk. destruct Hk as [Hk|Hk]; [tauto|lia].
    + intros k Hk. rewrite ids_eq in *. apply in_app_or in Hk. destruct Hk as [Hk|Hk].
      * apply Hin in Hk. destruct Hk as [Hk|Hk]; [left; apply in_or_app; left; exact Hk|]. right. left. fold h. fold j. lia.
      * left. apply in_or_app. right. exact Hk.
    + intros k Hk Hn. apply F2; [exact Hk|]. intro Q. apply Hn. rewrite ids_eq. apply in_or_app. left. exact Q.
  - (* OGet *)
    assert (Hi := Hu i eq_refl). assert (H := inv_at w P g i p I Hi). simpl.
    destruct (ow_root w i) as [b|] eqn:Eb; [|destruct H as [-> _]; reflexivity].
    destruct H as (B & EB & Ev & S & N & U & H). rewrite Ev.
    destruct (o_at p b) as [x|] eqn:Ex, (get_at p B) as [X|] eqn:EX; try contradiction; [|reflexivity].
    destruct H as (Sx & Nx & Ux).
    destruct x as [a par t n s sets subs], X as [t' n' s' sets' subs']. assert (Sx' := Sx). apply shows_eq in Sx'. destruct Sx' as (<- & <- & <- & S4 & S5).
    rewrite ids_eq in Nx. assert (Nx' := Nx). apply nodup_app in Nx'. destruct Nx' as (N1 & N2 & N3).
    destruct (o_get_spec (ow_heap w) sets sets' name S4 N1) as (h' & o & R1 & R2 & R3 & R4 & R5 & R6).
    cbn [ob_sets]. rewrite R1. cbn [obind fst snd].
    assert (E0 : set_root (ow_root w) i (Some (o_set p (OB a par t n s sets subs) b)) = set_root (ow_root w) i (Some b)).
    { f_equal. f_equal. clear -Ex. revert b Ex. induction p as [|k p IH]; intros [a' par' t' n' s' sets' subs'] Ex; [simpl in Ex; simpl o_set; congruence|].
      destruct (o_at_split _ _ _ _ _ _ _ _ _ _ Ex) as (l1 & m & l2 & -> & <- & H2). simpl. rewrite upd_mid. rewrite (IH m H2). reflexivity. }
    assert (E1 : forall h', Inv (OWorld h' (set_root (ow_root w) i (Some b))) (v_put P i p (CB t n s (fst (get_setting sets' name)) subs')) g ->
                 Inv (OWorld h' (ow_root w)) (v_put P i p (CB t n s (fst (get_setting sets' name)) subs')) g).
    { intros h0 [J1 J2 J3]. assert (Er : forall k, set_root (ow_root w) i (Some b) k = ow_root w k).
      { intro k. unfold set_root. destruct (Nat.eqb_spec k i) as [->|]; [symmetry; exact Eb|reflexivity]. }
      constructor; [exact J1| |].
      - intros k Hk. specialize (J2 k Hk). unfold owned in *. simpl in *. rewrite Er in J2. exact J2.
      - intros k1 k2 b1 c1 k Hk1 Hk2 Q Q1 Q2. apply (J3 k1 k2 b1 c1 k Hk1 Hk2 Q); simpl; rewrite Er; assumption. }
    assert (E2 : Inv (OWorld h' (ow_root w)) (v_put P i p (CB t n s (fst (get_setting sets' name)) subs')) g).
    { apply E1. rewrite <- E0. eapply (inv_block w P g g i b B p _ _ h'); try eassumption; try reflexivity.
      - intros j Hj; exact Hj.
      - intros k y Hy. rewrite R4. destruct (in_dec Nat.eq_dec k sets) as [Q|Q].
        + apply (shows_lt (ow_heap w) _ _ k (iv_wf _ _ _ I) Sx). rewrite ids_eq. apply in_or_app. left. exact Q.
        + rewrite (R3 k Q) in Hy. exact (iv_wf _ _ _ I k y Hy).
      - lia.
      - apply shows_eq. repeat split; auto. apply shows_list_frame with (c := h_set (ow_heap w)); [|exact S5].
        intros k Hk. apply R3. intro Q. exact (N3 k Q Hk).
      - inversion Ux; subst. constructor; try assumption. rewrite get_setting_names. assumption.
      - intros k Hk. left. exact Hk.
      - intros k Hk Hn. apply R3. intro Q. apply Hn. rewrite ids_eq. apply in_or_app. left. exact Q. }
    destruct o as [k|].
    + destruct R6 as (R6 & R7 & R8). unfold h_get. rewrite R7. destruct (snd (get_setting sets' name)) as [v|]; [|contradiction].
      simpl. eexists. split; [reflexivity|exact E2].
    + destruct R6 as (R6 & _). rewrite R6. simpl. eexists. split; [reflexivity|exact E2].
  - (* OCopy *)
    assert (Hi := Hu i eq_refl). assert (H := inv_at w P g i p I Hi). simpl.
    destruct (ow_root w i) as [b|] eqn:Eb; [|destruct H as [-> _]; reflexivity].
    destruct H as (B & EB & Ev & S & N & U & H). rewrite Ev.
    destruct (o_at p b) as [x|] eqn:Ex, (get_at p B) as [X|] eqn:EX; try contradiction; [|reflexivity].
    destruct H as (Sx & Nx & Ux). destruct (o_copy_spec x (ow_heap w) X (iv_wf _ _ _ I) Sx) as (h' & x' & R1 & R2 & R3 & R4 & R5 & R6 & R7).
    rewrite R1. cbn [obind fst snd]. eexists. split; [reflexivity|].
    apply (inv_change w P g _ h' j (Some x') (Some (copy_block X)) I).
    + exact R3.
    + exact R4.
    + intros k Hk Q Q2. apply Hk. apply in_in_remove; assumption.
    + intros k c l Hk Q E Hl. apply R6. apply (inv_root_lt w P g k c l I); [|exact E|exact Hl]. intro Q2. apply Hk. apply in_in_remove; assumption.
    + split; [exact R2|]. split; [exact R5|]. apply copy_uniq. exact Ux.
    + intros k b0 c l Hk Q E Eb0 Hl Hl2. injection Eb0 as <-. apply R7 in Hl.
      assert (l < h_next (ow_heap w)). { apply (inv_root_lt w P g k c l I); [|exact E|exact Hl2]. intro Q2. apply Hk. apply in_in_remove; assumption. } lia.
  - (* OMerge *)
    assert (Hi := Hu i (or_introl eq_refl)). assert (Hj := Hu j (or_intror eq_refl)).
    assert (H := inv_at w P g i p I Hi). assert (H' := inv_at w P g j q I Hj). simpl.
    destruct (ow_root w i) as [b|] eqn:Eb; [|destruct H as [-> _]; reflexivity].
    destruct H as (B & EB & Ev & S & N & U & H). rewrite Ev.
    destruct (ow_root w j) as [c|] eqn:Ec; [|destruct H' as [-> _]; destruct (get_at p B); reflexivity].
    destruct H' as (C & EC & Ev' & S' & N' & U' & H'). rewrite Ev'.
    destruct (o_at p b) as [x|] eqn:Ex, (get_at p B) as [X|] eqn:EX; try contradiction; [|reflexivity].
    destruct (o_at q c) as [y|] eqn:Ey, (get_at q C) as [Y|] eqn:EY; try contradiction; [|reflexivity].
    destruct H as (Sx & Nx & Ux). destruct H' as (Sy & Ny & Uy).
    assert (Hxb := proj1 (at_ids p b x Ex)). assert (Hyc := proj1 (at_ids q c y Ey)).
    destruct (o_merge_ok y (ow_heap w) x allow X Y (iv_wf _ _ _ I) Sx Sy Nx Ny) as (h' & x' & R1 & R2 & R3 & R4 & R5).
    { intros k Hk Q. apply (iv_dis _ _ _ I i j b c k Hi Hj Hne Eb Ec); [apply Hxb; exact Q|apply Hyc; exact Hk]. }
    { intros _. exact Uy. }
    rewrite R1. cbn [obind fst snd]. eexists. split; [reflexivity|].
    destruct R3 as [G1 G2 G3 G4 G5].
    assert (Hgg : forall k, ~ In k (given_after g (OMerge i p j q allow)) -> ~ In k g).
    { intros k Hk Q. apply Hk. simpl. destruct allow; [right|]; exact Q. }
    eapply (inv_block w P g _ i b B p x X h'); try eassumption.
    + apply merge_uniq; assumption.
    + apply merge_head.
    + intros k Hk. apply G5 in Hk. destruct Hk as [Hk|[Ha [Hk|Hk]]]; [left; exact Hk| |right; left; lia].
      right. right. subst allow. split.
      * intro Q. exact (iv_dis _ _ _ I i j b c k Hi Hj Hne Eb Ec Q (Hyc k Hk)).
      * intros k2 d Hk2 Hne2 Ed Q. assert (Hn2 : ~ In k2 g) by (apply Hgg; exact Hk2).
        assert (k2 <> j) by (intro Q2; apply Hk2; left; symmetry; exact Q2).
        exact (iv_dis _ _ _ I k2 j d c k Hn2 Hj H Ed Ec Q (Hyc k Hk)).
  - (* ODelete *)
    assert (Hi := Hu i eq_refl). assert (H := iv_root _ _ _ I i Hi). unfold owned in H. simpl.
    destruct (ow_root w i) as [b|] eqn:Eb, (P i) as [B|] eqn:EB; try contradiction; [|reflexivity].
    destruct H as (S & N & U). destruct (o_delete_spec b (ow_heap w) N) as (h' & R1 & R2 & R3 & R4).
    { intros k Hk. destruct (shows_live b _ B k S Hk) as [s E]. rewrite E. discriminate. }
    rewrite R1. cbn [obind]. eexists. split; [reflexivity|].
    apply (inv_change w P g g h' i None None I).
    + intros k y Hy. rewrite R4. destruct (in_dec Nat.eq_dec k (ids b)) as [Q|Q]; [rewrite R3 in Hy by exact Q; discriminate|].
      rewrite R2 in Hy by exact Q. exact (iv_wf _ _ _ I k y Hy).
    + lia.
    + intros j Hj _. exact Hj.
    + intros j c k Hj Q E Hk. apply R2. intro Q2. exact (iv_dis _ _ _ I j i c b k Hj Hi Q E Eb Hk Q2).
    + exact Logic.I.
    + discriminate.
Qed.

Lemma run_sim : forall ops w P g, Inv w P g -> keeps_rule g ops ->
  match v_run P ops with
  | Some (P', l) => exists w' g', o_run w ops = Ok (w', l) /\ g' = fold_left given_after ops g /\ Inv w' P' g'
  | None => o_run w ops = UB
  end.
Proof.
  induction ops as [|o r IH]; intros w P g I K.
  - simpl. exists w, g. repeat split; try assumption; apply I.
  - destruct K as (K1 & K2 & K3). simpl. assert (H := step_sim w P g o I K1 K2). destruct (v_step P o) as [[P1 x]|].
    + destruct H as (w1 & E1 & I1). rewrite E1. cbn [obind fst snd]. specialize (IH w1 P1 _ I1 K3). destruct (v_run P1 r) as [[P2 l]|].
      * destruct IH as (w2 & g2 & E2 & E3 & I2). rewrite E2. cbn [obind fst snd]. exists w2, g2. repeat split; try assumption; apply I2.
      * rewrite IH. reflexivity.
    + rewrite H. reflexivity.
Qed.

Lemma inv_start : Inv o_start v_start [].
Proof.
  constructor.
  - intros i x H. discriminate.
  - intros i _. exact Logic.I.
  - intros i j b c k _ _ _ H. discriminate.
Qed.

(** * Deleting what has been freed already *)

Lemma o_free_sets_dead : forall sets h k, In k sets -> h_set h k = None -> o_free_sets h sets = UB.
Proof.
  induction sets as [|i r IH]; intros h k Hk E; [contradiction|]. simpl. unfold h_free. destruct (h_set h i) as [s|] eqn:Ei; [|reflexivity].
  destruct Hk as [<-|Hk]; [congruence|]. simpl. apply (IH _ k Hk). simpl. destruct (Nat.eqb k i); [reflexivity|exact E].
Qed.

Lemma o_free_sets_keep : forall sets h h' k, o_free_sets h sets = Ok h' -> h_set h k = None -> h_set h' k = None.
Proof.
  induction sets as [|i r IH]; intros h h' k H E; simpl in H; [injection H as <-; exact E|].
  unfold h_free in H. destruct (h_set h i); [|discriminate]. simpl in H. apply (IH _ h' k H). simpl. destruct (Nat.eqb k i); [reflexivity|exact E].
Qed.

Lemma o_free_sets_out : forall sets h, o_free_sets h sets <> Throw.
Proof. induction sets as [|i r IH]; intros h; simpl; [discriminate|]. unfold h_free. destruct (h_set h i); [apply IH|discriminate]. Qed.

Lemma o_delete_dead : forall b h k, (In k (ids b) -> h_set h k = None -> o_delete b h = UB) /\
  (forall h', o_delete b h = Ok h' -> h_set h k = None -> h_set h' k = None) /\ o_delete b h <> Throw.
Proof.
  induction b as [a par t n s sets subs IH] using oblock_ind'; intros h k. rewrite o_delete_eq.
  assert (L : forall h, (In k (flat_map ids subs) -> h_set h k = None -> o_delete_list subs h = UB) /\
    (forall h', o_delete_list subs h = Ok h' -> h_set h k = None -> h_set h' k = None) /\ o_delete_list subs h <> Throw).
  { clear h. induction IH as [|b r Hb Hr IHr]; intro h.
    - split; [intros []|]. split; [|discriminate]. intros h' H E. injection H as <-. exact E.
    - simpl. destruct (Hb h k) as (A1 & A2 & A3). destruct (o_delete b h) as [h1| |] eqn:E1; simpl.
      + destruct (IHr h1) as (B1 & B2 & B3). split; [|split].
        * intros Hk E. apply in_app_or in Hk. destruct Hk as [Hk|Hk]; [specialize (A1 Hk E); discriminate|]. apply B1; [exact Hk|]. apply (A2 h1 eq_refl E).
        * intros h' H E. apply (B2 h' H). apply (A2 h1 eq_refl E).
        * exact B3.
      + contradiction.
      + split; [reflexivity|]. split; [discriminate|discriminate]. }
  assert (F := o_free_sets_keep sets h). assert (D := o_free_sets_dead sets h k). assert (T := o_free_sets_out sets h).
  destruct (o_free_sets h sets) as [h1| |]; simpl.
  - destruct (L h1) as (B1 & B2 & B3). split; [|split].
    + intros Hk E. apply in_app_or in Hk. destruct Hk as [Hk|Hk]; [specialize (D Hk E); discriminate|]. apply B1; [exact Hk|]. apply (F h1 k eq_refl E).
    + intros h' H E. apply (B2 h' H). apply (F h1 k eq_refl E).
    + exact B3.
  - contradiction.
  - split; [reflexivity|]. split; discriminate.
Qed.

(** * Parent pointers *)

Lemma parents_eq : forall a par t n s sets subs,
  parents_ok (OB a par t n s sets subs) <-> Forall (fun c => ob_parent c = Some a /\ parents_ok c) subs.
Proof.
  intros. simpl. induction subs as [|c r IH]; split; intro H; try constructor; try exact I.
  - split; apply H.
  - apply IH. apply H.
  - inversion H as [|x y [H1 H2] H3]; subst. exact H1.
  - inversion H as [|x y [H1 H2] H3]; subst. split; [exact H2|apply IH; exact H3].
Qed.

Lemma o_copy_parent : forall b h h' b', o_copy b h = Ok (h', b') ->
  forall p, option_map ob_parent (o_at p b') = option_map ob_parent (o_at p b).
Proof.
  induction b as [a par t n s sets subs IH] using oblock_ind'; intros h h' b' H p. rewrite o_copy_eq in H.
  destruct (o_copy_list subs (fst (h_block h))) as [[h1 l]| |] eqn:E; try discriminate. cbn [obind fst snd] in H.
  destruct (o_copy_sets h1 sets) as [[h2 sets2]| |]; try discriminate. cbn [obind fst snd] in H. injection H as H1 H2. subst b'.
  destruct p as [|i p]; [reflexivity|]. simpl. clear h2 sets2 H1. generalize dependent (fst (h_block h)). intro h0. revert l i h0.
  induction IH as [|c r Hc Hr IHr]; intros l i h0 E; cbn [o_copy_list] in E.
  - injection E as _ <-. destruct i; reflexivity.
  - destruct (o_copy c h0) as [[h3 c']| |] eqn:Ec; try discriminate. cbn [obind fst snd] in E.
    destruct (o_copy_list r h3) as [[h4 l']| |] eqn:El; try discriminate. cbn [obind fst snd] in E. injection E as -> <-.
    destruct i as [|i]; simpl; [exact (Hc h0 h3 c' Ec p)|]. exact (IHr l' i h3 El).
Qed.

Definition head_same (b b' : oblock) : Prop := ob_addr b' = ob_addr b /\ ob_parent b' = ob_parent b.

Lemma forall_upd : forall A (Q : A -> Prop) (l : list A) i m f, Forall Q l -> nth_error l i = Some m -> Q (f m) -> Forall Q (upd_nth i f l).
Proof.
  induction l as [|x r IH]; intros [|i] m f F E H; simpl in *; try discriminate; inversion F; subst; constructor; auto.
  - injection E as ->. exact H.
  - apply (IH i m f); assumption.
Qed.

Lemma o_merge_parents : forall cb h this h' this' u, o_merge cb h this false = Ok (h', this', u) ->
  head_same this this' /\ (parents_ok this -> parents_ok this').
Proof.
  induction cb as [a0 p0 t0 n0 s0 csets csubs IH] using oblock_ind'. intros h [a par t n sec sets subs] h' this' u H. rewrite o_merge_eq in H.
  destruct (o_merge_sets h sets csets false) as [[[h1 sets1] u1]| |]; try discriminate. cbn [obind fst snd] in H.
  destruct (o_merge_list false csubs h1 subs) as [[[h2 subs1] u2]| |] eqn:E; try discriminate. cbn [obind fst snd] in H. injection H as _ H2 _. subst this'.
  split; [split; reflexivity|]. rewrite !parents_eq. intro F. revert h1 subs subs1 h2 u2 F E.
  induction IH as [|b r Hb Hr IHr]; intros h1 subs subs1 h2 u2 F E.
  - injection E as _ <- _. exact F.
  - rewrite o_merge_list_cons in E. destruct (o_find_sub subs (ob_type b) (ob_name b)) as [i|].
    + destruct (nth_error subs i) as [m|] eqn:Em; [|discriminate]. destruct (o_merge b h1 m false) as [[[h3 m'] u3]| |] eqn:E3; try discriminate.
      cbn [obind fst snd] in E. destruct (o_merge_list false r h3 (upd_nth i (fun _ => m') subs)) as [[[h4 s4] u4]| |] eqn:E4; try discriminate.
      cbn [obind fst snd] in E. injection E as _ <- _. apply (IHr h3 _ s4 h4 u4) in E4; [exact E4|].
      destruct (Hb h1 m h3 m' u3 E3) as [[_ K1] K2].
      apply (forall_upd _ _ _ _ m); [exact F|exact Em|]. rewrite Forall_forall in F. destruct (F m (nth_error_In _ _ Em)) as [F1 F2].
      split; [rewrite K1; exact F1|apply K2; exact F2].
    + destruct (o_merge_list false r h1 subs) as [[[h4 s4] u4]| |] eqn:E4; try discriminate. cbn [obind fst snd] in E. injection E as _ <- _.
      exact (IHr h1 subs s4 h4 u4 F E4).
Qed.

Lemma set_parents : forall p b x x', o_at p b = Some x -> head_same x x' -> (parents_ok x -> parents_ok x') ->
  head_same b (o_set p x' b) /\ (parents_ok b -> parents_ok (o_set p x' b)).
Proof.
  induction p as [|i p IH]; intros [a par t n s sets subs] x x' E H K.
  - simpl in E. injection E as <-. simpl o_set. split; assumption.
  - destruct (o_at_split _ _ _ _ _ _ _ _ _ _ E) as (l1 & m & l2 & -> & <- & H2). simpl o_set. rewrite upd_mid. split; [split; reflexivity|].
    rewrite !parents_eq. intro F. apply Forall_app in F. destruct F as [F1 F2]. inversion F2 as [|y z [F3 F4] F5]; subst. apply Forall_app. split; [exact F1|].
    destruct (IH m x x' H2 H K) as [[_ J1] J2]. constructor; [|exact F5]. split; [rewrite J1; exact F3|apply J2; exact F4].
Qed.

Definition wparents (w : oworld) : Prop := forall i b, ow_root w i = Some b -> ob_parent b = None /\ parents_ok b.

Lemma wparents_set : forall w h i p b x x', wparents w -> ow_root w i = Some b -> o_at p b = Some x -> head_same x x' ->
  (parents_ok x -> parents_ok x') -> wparents (OWorld h (set_root (ow_root w) i (Some (o_set p x' b)))).
Proof.
  intros w h i p b x x' W Eb Ex H K j c Ej. unfold set_root in Ej. simpl in Ej. destruct (Nat.eqb j i); [|exact (W j c Ej)].
  injection Ej as <-. destruct (set_parents p b x x' Ex H K) as [[_ J1] J2]. destruct (W i b Eb) as [W1 W2]. split; [rewrite J1; exact W1|apply J2; exact W2].
Qed.

Lemma step_parents : forall w o w' x, o_step w o = Ok (w', x) -> no_copy o -> wparents w -> wparents w'.
Proof.
  intros w o w' x H N W. destruct o as [i ty name sec|i p ty name sec|i p name vals|i p name|i j p|i p j q allow|i]; simpl in H, N.
  - injection H as <- _. intros j c Ej. unfold set_root in Ej. simpl in Ej. destruct (Nat.eqb j i); [|exact (W j c Ej)]. injection Ej as <-. split; [reflexivity|exact I].
  - destruct (ow_root w i) as [b|] eqn:Eb; [|discriminate]. destruct (o_at p b) as [y|] eqn:Ey; [|discriminate].
    destruct y as [a par t n s sets subs]. simpl in H. destruct (o_find_sub subs ty name) as [k|]; injection H as <- _.
    + apply (wparents_set w _ i p b _ _ W Eb Ey); [split; reflexivity|tauto].
    + apply (wparents_set w _ i p b _ _ W Eb Ey); [split; reflexivity|]. rewrite !parents_eq. intro F. apply Forall_app. split; [exact F|].
      constructor; [|constructor]. split; [reflexivity|exact I].
  - destruct (ow_root w i) as [b|] eqn:Eb; [|discriminate]. destruct (o_at p b) as [y|] eqn:Ey; [|discriminate].
    destruct y as [a par t n s sets subs]. match type of H with obind ?z _ = _ => destruct z as [[h2 s2]| |] end; try discriminate.
    injection H as <- _. apply (wparents_set w _ i p b _ _ W Eb Ey); [split; reflexivity|]. rewrite !parents_eq. tauto.
  - destruct (ow_root w i) as [b|] eqn:Eb; [|discriminate]. destruct (o_at p b) as [y|] eqn:Ey; [|discriminate].
    destruct (o_get (ow_heap w) (ob_sets y) name) as [[h2 o]| |]; try discriminate. cbn [obind fst snd] in H.
    destruct o as [k|]; [destruct (h_get h2 k) as [v| |]; try discriminate|]; injection H as <- _; exact W.
  - contradiction.
  - subst allow. destruct (ow_root w i) as [b|] eqn:Eb; [|discriminate]. destruct (ow_root w j) as [c|] eqn:Ec; [|discriminate].
    destruct (o_at p b) as [y|] eqn:Ey; [|discriminate]. destruct (o_at q c) as [z|] eqn:Ez; [|discriminate].
    destruct (o_merge z (ow_heap w) y false) as [[[h2 y'] u]| |] eqn:E; try discriminate. cbn [obind fst snd] in H. injection H as <- _.
    destruct (o_merge_parents _ _ _ _ _ _ E) as [K1 K2]. apply (wparents_set w _ i p b _ _ W Eb Ey K1 K2).
  - destruct (ow_root w i) as [b|] eqn:Eb; [|discriminate]. destruct (o_delete b (ow_heap w)) as [h2| |]; try discriminate. injection H as <- _.
    intros j c Ej. unfold set_root in Ej. simpl in Ej. destruct (Nat.eqb j i); [discriminate|exact (W j c Ej)].
Qed.

Lemma run_parents : forall ops w w' l, o_run w ops = Ok (w', l) -> Forall no_copy ops -> wparents w -> wparents w'.
Proof.
  induction ops as [|o r IH]; intros w w' l H F W; simpl in H; [injection H as <- _; exact W|].
  inversion F as [|x y F1 F2]; subst. destruct (o_step w o) as [[w1 x1]| |] eqn:E; try discriminate. cbn [obind fst snd] in H.
  destruct (o_run w1 r) as [[w2 l2]| |] eqn:E2; try discriminate. cbn [obind fst snd] in H. injection H as <- _.
  exact (IH w1 w2 l2 E2 F2 (step_parents w o w1 x1 E F1 W)).
Qed.

(** * A call changes one variable *)

Lemma v_step_other : forall P o P' x k, v_step P o = Some (P', x) -> k <> changes o -> P' k = P k.
Proof.
  intros P o P' x k H Hk.
  assert (R : forall i v, i = changes o -> set_root P i v k = P k).
  { intros i v ->. unfold set_root. destruct (Nat.eqb_spec k (changes o)); [contradiction|reflexivity]. }
  assert (Q : forall i p y, i = changes o -> v_put P i p y k = P k).
  { intros i p y Hi. unfold v_put. destruct (P i); [apply R; exact Hi|reflexivity]. }
  destruct o as [i ty name sec|i p ty name sec|i p name vals|i p name|i j p|i p j q allow|i]; simpl in *.
  - injection H as <- _. apply R. reflexivity.
  - destruct (v_at P i p); [|discriminate]. injection H as <- _. apply Q. reflexivity.
  - destruct (v_at P i p); [|discriminate]. injection H as <- _. apply Q. reflexivity.
  - destruct (v_at P i p) as [[t n s sets subs]|]; [|discriminate]. injection H as <- _. apply Q. reflexivity.
  - destruct (v_at P i p); [|discriminate]. injection H as <- _. apply R. reflexivity.
  - destruct (v_at P i p); [|discriminate]. destruct (v_at P j q); [|discriminate]. injection H as <- _. apply Q. reflexivity.
  - destruct (P i); [|discriminate]. injection H as <- _. apply R. reflexivity.
Qed.

Lemma keeps_rule_app : forall ops g o, keeps_rule g (ops ++ [o]) -> keeps_rule g ops /\
  (forall i, uses o i -> ~ In i (fold_left given_after ops g)) /\ (match o with OMerge i _ j _ _ => i <> j | _ => True end).
Proof.
  induction ops as [|a r IH]; intros g o H.
  - destruct H as (H1 & H2 & _). repeat split; assumption.
  - destruct H as (H1 & H2 & H3). destruct (IH _ _ H3) as (A & B & C). repeat split; assumption.
Qed.

Lemma o_run_app : forall ops w o, o_run w (ops ++ [o]) =
  obind (o_run w ops) (fun q => obind (o_step (fst q) o) (fun q2 => Ok (fst q2, snd q ++ [snd q2]))).
Proof.
  induction ops as [|a r IH]; intros w o; simpl.
  - destruct (o_step w o) as [[w1 x]| |]; reflexivity.
  - destruct (o_step w a) as [[w1 x]| |]; simpl; try reflexivity. rewrite IH. destruct (o_run w1 r) as [[w2 l]| |]; simpl; try reflexivity.
    destruct (o_step w2 o) as [[w3 y]| |]; reflexivity.
Qed.

Lemma shows_fun : forall b c x y, shows c b x -> shows c b y -> x = y.
Proof.
  induction b as [a par t n s sets subs IH] using oblock_ind'; intros c [t1 n1 s1 sets1 subs1] [t2 n2 s2 sets2 subs2] H1 H2.
  apply shows_eq in H1. apply shows_eq in H2. destruct H1 as (<- & <- & <- & A4 & A5). destruct H2 as (<- & <- & <- & B4 & B5).
  assert (E1 : sets1 = sets2).
  { rewrite A4 in B4. clear -B4. revert sets2 B4. induction sets1 as [|x r IHs]; intros [|y r2] E; try discriminate; [reflexivity|].
    injection E as -> E. f_equal. apply IHs. exact E. }
  assert (E2 : subs1 = subs2).
  { clear A4 B4. revert subs1 subs2 A5 B5. induction IH as [|b r Hb Hr IHr]; intros subs1 subs2 A5 B5; inversion A5; inversion B5; subst; [reflexivity|].
    f_equal; [apply (Hb c); assumption|apply IHr; assumption]. }
  subst. reflexivity.
Qed.

Lemma run_frame : forall ops o w l w' l' k b X, keeps_rule [] (ops ++ [o]) ->
  o_run o_start ops = Ok (w, l) -> o_run o_start (ops ++ [o]) = Ok (w', l') ->
  k <> changes o -> ~ In k (fold_left given_after (ops ++ [o]) []) ->
  ow_root w k = Some b -> shows (h_set (ow_heap w)) b X ->
  exists b', ow_root w' k = Some b' /\ shows (h_set (ow_heap w')) b' X.
Proof.
  intros ops o w l w' l' k b X K E1 E2 Hk Hg Eb Sb. destruct (keeps_rule_app _ _ _ K) as (K1 & K2 & K3).
  assert (S := run_sim ops o_start v_start [] inv_start K1). destruct (v_run v_start ops) as [[P lv]|]; [|congruence].
  destruct S as (w1 & g1 & R1 & R2 & I1). rewrite R1 in E1. injection E1 as -> ->. subst g1.
  rewrite o_run_app, R1 in E2. cbn [obind fst snd] in E2. assert (S2 := step_sim w P _ o I1 K2 K3).
  destruct (v_step P o) as [[P' x]|] eqn:Ev; [|rewrite S2 in E2; discriminate]. destruct S2 as (w2 & R3 & I2). rewrite R3 in E2. cbn [obind fst snd] in E2.
  injection E2 as -> _. assert (Vk := v_step_other P o P' x k Ev Hk).
  rewrite fold_left_app in Hg. simpl in Hg.
  assert (Hg1 : ~ In k (fold_left given_after ops [])).
  { intro Q. apply Hg. destruct o as [i ty name sec|i p ty name sec|i p name vals|i p name|i j p|i p j q allow|i]; simpl in Hk |- *; try exact Q.
    - apply in_in_remove; assumption.
    - apply in_in_remove; assumption.
    - destruct allow; [right|]; exact Q. }
  assert (O1 := iv_root _ _ _ I1 k Hg1). assert (O2 := iv_root _ _ _ I2 k Hg). unfold owned in O1, O2. rewrite Eb in O1. rewrite Vk in O2.
  destruct (P k) as [Y|]; [|contradiction]. destruct O1 as (O1 & _). rewrite (shows_fun _ _ _ _ Sb O1).
  destruct (ow_root w' k) as [b'|]; [|contradiction]. exists b'. split; [reflexivity|apply O2].
Qed.
