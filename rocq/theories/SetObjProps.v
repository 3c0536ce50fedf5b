(** Properties of setting objects. *)
From Verif Require Import Base SettingsModel SdtModel ScalarModel SetObjModel SetObjSpec SetObjProofs SetObjProofs2 SetObjProofs3 SetObjProofs4.
From Coq Require Import ZArith QArith Lia.
Local Open Scope Z_scope.

(** * C103: readers and type checks of settings that hold a vector *)

(** The readers of truth values, numbers and texts give the value with that index if it is of
    that sort, and throw otherwise. *)
Theorem C103_read : forall rnd d t i,
  view rnd (Vec (Some d) t) QCount = Ok (ANum (length (values_of d))) /\
  view rnd (Vec (Some d) t) (QBool i) =
    Ok (match nth_error (values_of d) i with Some (XBool b) => ABool b | _ => AThrow end) /\
  view rnd (Vec (Some d) t) (QScalar i) =
    Ok (match nth_error (values_of d) i with Some (XNum x) => AReal x | _ => AThrow end) /\
  view rnd (Vec (Some d) t) (QString i) =
    Ok (match nth_error (values_of d) i with Some (XText s) => AStr s | _ => AThrow end).
Proof. exact read_values. Qed.
Print Assumptions C103_read.

(** The integer readers give the integer part of the number, folded into their range.  Doubles
    outside the 64-bit range are undefined behaviour for all of them. *)
Theorem C103_integer : forall rnd d t q i bits lo hi, wf_data d -> int_reader q i bits lo hi ->
  match nth_error (values_of d) i with
  | Some (XNum (DFin x)) =>
      exists k, int_part x k /\
      (is_real d = true -> ~ (- 2 ^ 63 <= k < 2 ^ 63) -> view rnd (Vec (Some d) t) q = UB) /\
      (is_real d = false \/ - 2 ^ 63 <= k < 2 ^ 63 ->
         exists z, view rnd (Vec (Some d) t) q = Ok (AInt z) /\ folded bits lo hi k z)
  | Some (XNum _) => view rnd (Vec (Some d) t) q = UB
  | _ => view rnd (Vec (Some d) t) q = Ok AThrow
  end.
Proof. exact read_integer. Qed.
Print Assumptions C103_integer.

(** Numbers that fit are read exactly. *)
Theorem C103_fits : forall rnd d t q i bits lo hi x k, wf_data d -> int_reader q i bits lo hi ->
  nth_error (values_of d) i = Some (XNum (DFin x)) -> int_part x k -> lo <= k < hi ->
  is_real d = false \/ k < 2 ^ 63 ->
  view rnd (Vec (Some d) t) q = Ok (AInt k).
Proof. exact read_exact. Qed.
Print Assumptions C103_fits.

(** The vector readers; the numbers come behind as many zeros. *)
Theorem C103_vectors : forall rnd d t,
  view rnd (Vec (Some d) t) QTextVec =
    (match d with VStr l => Ok (AStrs l) | _ => Ok AThrow end) /\
  (sort_of d <> Numbers -> view rnd (Vec (Some d) t) QNumVec = Ok AThrow) /\
  (sort_of d = Numbers -> exists l, view rnd (Vec (Some d) t) QNumVec = Ok (AReals (repeat (DFin 0) (length (values_of d)) ++ l)) /\
     map XNum l = values_of d).
Proof. exact read_vector. Qed.
Print Assumptions C103_vectors.

(** Checks settled by the element type; an index or an expected length is ignored. *)
Theorem C103_types : forall rnd d t i,
  view rnd (Vec (Some d) t) (QIsBool i) = Ok (ABool (match sort_of d with Truths => true | _ => false end)) /\
  view rnd (Vec (Some d) t) (QIsInt i) = Ok (ABool (match sort_of d with Numbers => true | _ => false end)) /\
  view rnd (Vec (Some d) t) (QIsNumVec i) = Ok (ABool (match sort_of d with Numbers => true | _ => false end)) /\
  view rnd (Vec (Some d) t) (QIsScalar i) =
    Ok (ABool (match sort_of d, values_of d with Numbers, [_] => true | _, _ => false end)) /\
  view rnd (Vec (Some d) t) (QIsInt64 i) = Ok (ABool (match d with VI64 _ => true | _ => false end)).
Proof. exact checks_by_type. Qed.
Print Assumptions C103_types.

(** The 32-bit check looks at the first value, whatever the index. *)
Theorem C103_int32 : forall rnd d t i, wf_data d ->
  match sort_of d, nth_error (values_of d) 0 with
  | Numbers, Some (XNum (DFin x)) =>
      exists k, int_part x k /\
      (is_real d = true -> ~ (- 2 ^ 63 <= k < 2 ^ 63) -> view rnd (Vec (Some d) t) (QIsInt32 i) = UB) /\
      (is_real d = false \/ - 2 ^ 63 <= k < 2 ^ 63 ->
         exists b, view rnd (Vec (Some d) t) (QIsInt32 i) = Ok (ABool b) /\
           (b = true <-> exists z, folded 64 (- 2 ^ 31) (2 ^ 31) k z))
  | Numbers, Some (XNum _) => view rnd (Vec (Some d) t) (QIsInt32 i) = UB
  | Numbers, _ => view rnd (Vec (Some d) t) (QIsInt32 i) = Ok AThrow
  | _, _ => view rnd (Vec (Some d) t) (QIsInt32 i) = Ok (ABool false)
  end.
Proof. exact check_int32. Qed.
Print Assumptions C103_int32.

Theorem C103_uint64 : forall rnd d t i,
  match sort_of d with
  | Numbers =>
      if unsigned d then view rnd (Vec (Some d) t) (QIsUInt64 i) = Ok (ABool true)
      else match nth_error (values_of d) (or_zero i) with
           | Some (XNum x) => exists b, view rnd (Vec (Some d) t) (QIsUInt64 i) = Ok (ABool b) /\ (b = true <-> at_least_zero x)
           | _ => view rnd (Vec (Some d) t) (QIsUInt64 i) = Ok AThrow
           end
  | _ => view rnd (Vec (Some d) t) (QIsUInt64 i) = Ok (ABool false)
  end.
Proof. exact check_uint64. Qed.
Print Assumptions C103_uint64.

(** The unsigned 32-bit check also says yes from 2^63 on. *)
Theorem C103_uint32 : forall rnd d t i, wf_data d ->
  match sort_of d with
  | Numbers =>
      match nth_error (values_of d) (or_zero i) with
      | Some (XNum (DFin x)) =>
          exists k, int_part x k /\
          ((x < 0)%Q -> view rnd (Vec (Some d) t) (QIsUInt32 i) = Ok (ABool false)) /\
          ((0 <= x)%Q -> is_real d = true -> 2 ^ 63 <= k -> view rnd (Vec (Some d) t) (QIsUInt32 i) = UB) /\
          ((0 <= x)%Q -> is_real d = false \/ k < 2 ^ 63 ->
             exists b, view rnd (Vec (Some d) t) (QIsUInt32 i) = Ok (ABool b) /\ (b = true <-> k < 2 ^ 32 \/ 2 ^ 63 <= k))
      | Some (XNum (DInfinity false)) => view rnd (Vec (Some d) t) (QIsUInt32 i) = UB
      | Some (XNum _) => view rnd (Vec (Some d) t) (QIsUInt32 i) = Ok (ABool false)
      | _ => view rnd (Vec (Some d) t) (QIsUInt32 i) = Ok AThrow
      end
  | _ => view rnd (Vec (Some d) t) (QIsUInt32 i) = Ok (ABool false)
  end.
Proof. exact check_uint32. Qed.
Print Assumptions C103_uint32.

(** A setting whose contents were deleted: no check says yes, every reader throws. *)
Theorem C103_unset : forall rnd t,
  (forall q, In q [QIsBool; QIsInt; QIsInt32; QIsInt64; QIsUInt32; QIsUInt64; QIsScalar; QIsNumVec] ->
     forall i, view rnd (Vec None t) (q i) = Ok (ABool false)) /\
  (forall q, In q [QBool; QInt; QInt32; QUInt32; QInt64; QUInt64; QScalar; QString] ->
     forall i, view rnd (Vec None t) (q i) = Ok AThrow) /\
  (forall q, In q [QCount; QNumVec; QTextVec] -> view rnd (Vec None t) q = Ok AThrow).
Proof.
  intros rnd t. repeat split.
  - intros q H i. cbn in H. decompose [or] H; subst; try reflexivity. contradiction.
  - intros q H i. cbn in H. decompose [or] H; subst; try reflexivity. contradiction.
  - intros q H. cbn in H. decompose [or] H; subst; try reflexivity. contradiction.
Qed.
Print Assumptions C103_unset.

(** The checks do not say whether the reader of the same name gives the number. *)
Theorem C103_checks_refuted : forall rnd t, exists d1 d2 d3 d4,
  wf_data d1 /\ wf_data d2 /\ wf_data d3 /\ wf_data d4 /\
  (view rnd (Vec (Some d1) t) (QIsInt32 (Some 1%nat)) = Ok (ABool true) /\
   view rnd (Vec (Some d1) t) (QInt64 1) = Ok (AInt (2 ^ 40)) /\ view rnd (Vec (Some d1) t) (QInt32 1) = Ok (AInt 0)) /\
  (view rnd (Vec (Some d2) t) (QIsUInt32 None) = Ok (ABool true) /\ view rnd (Vec (Some d2) t) (QIsInt32 None) = Ok (ABool true) /\
   view rnd (Vec (Some d2) t) (QUInt64 0) = Ok (AInt (2 ^ 64 - 1)) /\ view rnd (Vec (Some d2) t) (QInt 0) = Ok (AInt (-1))) /\
  (view rnd (Vec (Some d3) t) (QIsInt None) = Ok (ABool true) /\
   view rnd (Vec (Some d3) t) (QScalar 0) = Ok (AReal (DFin (1 # 2))) /\ view rnd (Vec (Some d3) t) (QInt 0) = Ok (AInt 0)) /\
  (view rnd (Vec (Some d4) t) (QIsUInt64 None) = Ok (ABool true) /\ view rnd (Vec (Some d4) t) (QUInt64 0) = UB).
Proof.
  intros rnd t. exists (VI64 [1; 2 ^ 40]), (VU64 [2 ^ 64 - 1]), (VReal [DFin (1 # 2)]), (VReal [DFin (inject_Z (2 ^ 63))]).
  split; [repeat constructor; lia|]. split; [repeat constructor; lia|].
  repeat split.
Qed.
Print Assumptions C103_checks_refuted.

Example C103_example : forall rnd, wf_data (VI32 [-3; 7]) /\
  nth_error (values_of (VI32 [-3; 7])) 1 = Some (XNum (DFin (inject_Z 7))) /\ int_part (inject_Z 7) 7 /\
  view rnd (Vec (Some (VI32 [-3; 7])) false) (QInt32 1) = Ok (AInt 7) /\
  view rnd (Vec (Some (VI32 [-3; 7])) false) (QUInt32 0) = Ok (AInt (2 ^ 32 - 3)).
Proof.
  intro rnd. split; [repeat constructor; lia|]. split; [reflexivity|]. split; [apply int_part_Z|]. split; reflexivity.
Qed.

(** * C104: setting objects are values, as long as every vector has one owner *)

(** A program that uses every vector it makes at most once - gives it to one setting, or
    deletes it - and no deleted setting sees what it would see if every setting held contents
    of its own; the vectors in memory are those it still holds and those of its settings. *)
Theorem C104_programs : forall rnd p a l, prun rnd nothing p = Some (Ok (a, l)) ->
  exists w, run rnd start p = Ok (w, l) /\ in_memory w = held a /\
    length (w_objs w) = length (objs a) /\
    (forall i o s q, nth_error (w_objs w) i = Some o -> nth_error (objs a) i = Some s ->
       ask rnd (w_heap w) o q = view rnd s q).
Proof. exact programs. Qed.
Print Assumptions C104_programs.

(** Undefined behaviour of such a program comes from a reader. *)
Theorem C104_undefined : forall rnd p, prun rnd nothing p = Some UB -> run rnd start p = UB.
Proof. exact programs_ub. Qed.
Print Assumptions C104_undefined.

(** When the program has given away or deleted its vectors and deleted its settings, nothing is
    left in memory. *)
Theorem C104_no_leak : forall rnd p a l, prun rnd nothing p = Some (Ok (a, l)) ->
  (forall x, In x (hand a) -> x = None) -> (forall s, In s (objs a) -> s = Gone) ->
  exists w, run rnd start p = Ok (w, l) /\ in_memory w = 0%nat.
Proof.
  intros rnd p a l H Hh Ho. destruct (programs rnd p a l H) as (w & E & M & _). exists w. split; [exact E|].
  rewrite M. unfold held.
  assert (forall (h : list (option vdata)), (forall x, In x h -> x = None) ->
    filter (fun h => match h with Some _ => true | None => false end) h = []) as F1.
  { induction h as [|x h IH]; intro G; [reflexivity|]. cbn. rewrite (G x) by (left; reflexivity). apply IH. intros y I. apply G. right. exact I. }
  assert (forall (h : list shown), (forall x, In x h -> x = Gone) ->
    filter (fun s => match s with Vec (Some _) _ => true | _ => false end) h = []) as F2.
  { induction h as [|x h IH]; intro G; [reflexivity|]. cbn. rewrite (G x) by (left; reflexivity). apply IH. intros y I. apply G. right. exact I. }
  rewrite (F1 _ Hh), (F2 _ Ho). reflexivity.
Qed.
Print Assumptions C104_no_leak.

(** A call changes one setting only, and none when it throws. *)
Theorem C104_others : forall rnd a c a' r j s, pstep rnd a c = Some (Ok (a', r)) -> target c <> Some j ->
  nth_error (objs a) j = Some s -> nth_error (objs a') j = Some s.
Proof. exact others. Qed.
Print Assumptions C104_others.
Theorem C104_throw : forall rnd a c a', pstep rnd a c = Some (Ok (a', AThrow)) -> a' = a.
Proof. exact throw_keeps. Qed.
Print Assumptions C104_throw.

(** Overwriting a setting that holds a vector: the element type is the first one the source says
    yes to; as many zeros come first as the source has values, then what the source's readers of
    that type give - for texts the first one again and again. *)
Theorem C104_overwrite : forall a d, adopt a = Ok d ->
  type_taken a d /\ exists n, a QCount = Ok (ANum n) /\ length (values_of d) = (2 * n)%nat /\
    (forall i, (i < n)%nat -> nth_error (values_of d) i = Some (zero_of (sort_of d))) /\
    (forall i, (i < n)%nat -> exists x, nth_error (values_of d) (n + i) = Some x /\ taken a d i x).
Proof. exact adopted. Qed.
Print Assumptions C104_overwrite.

(** From another vector this fails exactly if that is a vector of numbers without any. *)
Theorem C104_overwrite_throws : forall rnd d t, adopt (view rnd (Vec (Some d) t)) = Throw <->
  sort_of d = Numbers /\ values_of d = [].
Proof. exact adopt_throws. Qed.
Print Assumptions C104_overwrite_throws.

(** The values of the source do not survive: halves become whole, large numbers become small
    ones, and a word of a script is no longer the first value. *)
Theorem C104_overwrite_keeps_refuted : forall rnd t, 
  adopt (view rnd (Vec (Some (VReal [DFin (3 # 2); DFin (1 # 2)])) t)) = Ok (VI32 [0; 0; 1; 0]) /\
  adopt (view rnd (Vec (Some (VI64 [1; 2 ^ 40])) t)) = Ok (VI32 [0; 0; 1; 0]) /\
  adopt (view rnd (Script (str_of "x") [str_of "yes"] t)) = Ok (VBool [false; true]) /\
  adopt (view rnd (Script (str_of "x") [str_of "18446744073709551615"] t)) = Ok (VU32 [0; 2 ^ 32 - 1]) /\
  adopt (view rnd (Vec (Some (VStr [str_of "a"; str_of "b"])) t)) = Ok (VStr [[]; []; str_of "a"; str_of "a"]).
Proof. intros rnd t. repeat split; vm_compute; reflexivity. Qed.
Print Assumptions C104_overwrite_keeps_refuted.

(** Copies: a script setting keeps its name and values; a vector of truth values or integers is
    copied without a name; vectors of doubles or texts cannot be copied. *)
Theorem C104_copy : forall rnd a i,
  (forall name vals t, nth_error (objs a) i = Some (Script name vals t) ->
     pstep rnd a (CopyOf i) = Some (Ok (mkplain (hand a) (objs a ++ [Script name vals false]), ANew (length (objs a))))) /\
  (forall d t, nth_error (objs a) i = Some (Vec (Some d) t) -> (match d with VReal _ | VStr _ => False | _ => True end) ->
     pstep rnd a (CopyOf i) = Some (Ok (mkplain (hand a) (objs a ++ [Vec (Some d) false]), ANew (length (objs a))))) /\
  (forall d t, nth_error (objs a) i = Some (Vec (Some d) t) -> (match d with VReal _ | VStr _ => True | _ => False end) ->
     pstep rnd a (CopyOf i) = Some (Ok (a, AThrow))).
Proof.
  intros rnd a i. repeat split; intros.
  - cbn. rewrite H. reflexivity.
  - cbn. rewrite H. destruct d; try contradiction; reflexivity.
  - cbn. rewrite H. destruct a. destruct d; try contradiction; reflexivity.
Qed.
Print Assumptions C104_copy.

(** Giving a vector twice: two settings with one vector end in a double deletion, and giving a
    setting the vector it already holds leaves it with a freed one. *)
Theorem C104_shared_refuted : forall rnd d,
  run rnd start [NewVec d; NewSF 0; NewSF 0; Delete 0; Delete 1] = UB /\
  run rnd start [NewVec d; NewSF 0; SetValue 0 0; Ask 0 QCount] = UB /\
  run rnd start [NewVec d; NewSF 0; FreeVec 0; Delete 0] = UB.
Proof. intros rnd d. repeat split. Qed.
Print Assumptions C104_shared_refuted.

(** Every setting has the name and the mark it shows: HasName compares with GetName, and the mark
    is the one of the object. *)
Theorem C104_identity : forall rnd s q name t,
  s = Gone \/ (exists vals, s = Script name vals t) \/ (name = [] /\ exists d, s = Vec d t) ->
  q = QName \/ (exists n, q = QHasName n) \/ q = QTouched ->
  (s = Gone -> view rnd s q = UB) /\
  (s <> Gone -> q = QName -> view rnd s q = Ok (AStr name)) /\
  (s <> Gone -> q = QTouched -> view rnd s q = Ok (ABool t)) /\
  (s <> Gone -> forall n, q = QHasName n -> exists b, view rnd s q = Ok (ABool b) /\ (b = true <-> n = name)).
Proof.
  intros rnd s q name t Hs Hq.
  assert (EQ : forall a b : str, str_eqb a b = true <-> b = a).
  { intros a b. rewrite str_eqb_eq. split; intro H; symmetry; exact H. }
  split; [intros ->; reflexivity|].
  destruct Hs as [ -> | [ [vals ->] | [-> [d ->]] ] ].
  - split; [intro H; contradiction H; reflexivity|]. split; intro H; contradiction H; reflexivity.
  - split; [intros _ ->; reflexivity|]. split; [intros _ ->; reflexivity|].
    intros _ n ->. exists (str_eqb name n). split; [reflexivity|]. apply EQ.
  - split; [intros _ ->; destruct d; reflexivity|]. split; [intros _ ->; destruct d; reflexivity|].
    intros _ n ->. exists (str_eqb [] n). split; [destruct d; reflexivity|]. apply EQ.
Qed.
Print Assumptions C104_identity.

(** A setting of a script answers with the readers of texts (C11, C12, C91): each with that of its
    own width, GetInteger as GetInteger64; a check without an index is that of the only value, and
    is negative if there is not exactly one. *)
Theorem C104_script : forall rnd name vals t,
  let v := view rnd (Script name vals t) in
  v QCount = Ok (ANum (length vals)) /\ v QTextVec = Ok (AStrs vals) /\
  v QNumVec = give AReals (get_numeric_vector rnd vals) /\
  (forall i, v (QBool i) = give ABool (script_get_bool vals i) /\
             v (QInt32 i) = give AInt (get_int32 vals i) /\ v (QUInt32 i) = give AInt (get_uint32 vals i) /\
             v (QInt64 i) = give AInt (get_int64 vals i) /\ v (QUInt64 i) = give AInt (get_uint64 vals i) /\
             v (QInt i) = v (QInt64 i) /\
             v (QScalar i) = give AReal (get_scalar_at rnd vals i) /\
             v (QString i) = Ok (match nth_error vals i with Some x => AStr x | None => AThrow end)) /\
  (forall i, v (QIsBool (Some i)) = give ABool (script_is_bool_at vals i) /\
             v (QIsInt32 (Some i)) = give ABool (is_int32_at vals i) /\ v (QIsUInt32 (Some i)) = give ABool (is_uint32_at vals i) /\
             v (QIsInt64 (Some i)) = give ABool (is_int64_at vals i) /\ v (QIsUInt64 (Some i)) = give ABool (is_uint64_at vals i) /\
             v (QIsScalar (Some i)) = give ABool (is_scalar_at rnd vals i)) /\
  (forall q, In q [QIsBool; QIsInt; QIsInt32; QIsInt64; QIsUInt32; QIsUInt64; QIsScalar] ->
     v (q None) = if (length vals =? 1)%nat then v (q (Some 0%nat)) else Ok (ABool false)) /\
  (forall i, v (QIsInt i) = v (QIsInt64 i)) /\
  v (QIsNumVec None) = give ABool (is_numeric_vector rnd vals) /\
  (forall n, v (QIsNumVec (Some n)) = if (length vals =? n)%nat then v (QIsNumVec None) else Ok (ABool false)).
Proof.
  intros rnd name vals t v. unfold v. split; [reflexivity|]. split; [reflexivity|]. split; [reflexivity|].
  split. { intro i. do 7 (split; [reflexivity|]). cbn [view ask_common ask_script]. unfold at_index. destruct (nth_error vals i); reflexivity. }
  split. { intro i. repeat split. }
  split. { intros q H. cbn [In] in H. decompose [or] H; subst; try contradiction;
    cbn [view ask_common ask_script]; unfold script_check, only_value; destruct (length vals =? 1)%nat; reflexivity. }
  split; [intro i; reflexivity|]. split; [reflexivity|].
  intro n. cbn [view ask_common ask_script]. unfold is_numeric_vector_of. destruct (length vals =? n)%nat; reflexivity.
Qed.
Print Assumptions C104_script.

(** The vector of a setting deleted behind its back: the checks that the element type settles are
    answered as before, a reader of another sort of value throws, and every use of the values is
    undefined. *)
Theorem C104_dangling : forall rnd d,
  let gone q := run rnd start [NewVec d; NewSF 0; FreeVec 0; Ask 0 q] in
  let says (x : query -> Prop) := exists w, run rnd start [NewVec d; NewSF 0; FreeVec 0] = Ok (w, [ANew 0; ANew 0; ADone]) /\
                          forall q, x q -> exists r, view rnd (Vec (Some d) false) q = Ok r /\ gone q = Ok (w, [ANew 0; ANew 0; ADone; r]) in
  gone QCount = UB /\ gone QNumVec = UB /\
  says (fun q => exists i, q = QIsBool i \/ q = QIsInt i \/ q = QIsInt64 i \/ q = QIsNumVec i) /\
  (forall i, sort_of d = Truths -> gone (QBool i) = UB) /\
  (sort_of d <> Truths -> says (fun q => exists i, q = QBool i)) /\
  (forall i q, In q [QInt; QInt32; QUInt32; QInt64; QUInt64; QScalar] -> sort_of d = Numbers -> gone (q i) = UB) /\
  (sort_of d <> Numbers -> says (fun q => exists i f, In f [QInt; QInt32; QUInt32; QInt64; QUInt64; QScalar] /\ q = f i)) /\
  (forall i, sort_of d = Numbers -> gone (QIsInt32 i) = UB /\ gone (QIsUInt32 i) = UB /\ gone (QIsScalar i) = UB /\
     (unsigned d = false -> gone (QIsUInt64 i) = UB)) /\
  (unsigned d = true -> says (fun q => exists i, q = QIsUInt64 i)) /\
  (sort_of d <> Numbers -> says (fun q => exists i, q = QIsInt32 i \/ q = QIsUInt32 i \/ q = QIsUInt64 i \/ q = QIsScalar i)) /\
  (forall i, sort_of d = Texts -> gone (QString i) = UB /\ gone QTextVec = UB) /\
  (sort_of d <> Texts -> says (fun q => q = QTextVec \/ exists i, q = QString i)).
Proof.
  intros rnd d gone says.
  assert (G : forall q, gone q = obind (ask rnd [mkcell d false] (OVec (Some 0%nat) false) q)
     (fun r => Ok (mkworld [mkcell d false] [0%nat] [OVec (Some 0%nat) false], [ANew 0; ANew 0; ADone; r]))).
  { intro q. unfold gone. cbn -[ask]. destruct (ask rnd [mkcell d false] (OVec (Some 0%nat) false) q); reflexivity. }
  assert (Sy : forall (x : query -> Prop), (forall q, x q -> exists r, view rnd (Vec (Some d) false) q = Ok r /\
      ask rnd [mkcell d false] (OVec (Some 0%nat) false) q = Ok r) -> says x).
  { intros x H. eexists. split; [reflexivity|]. intros q Hq. destruct (H q Hq) as [r [V A]]. exists r. split; [exact V|].
    rewrite G, A. reflexivity. }
  split; [rewrite G; reflexivity|]. split; [rewrite G; reflexivity|].
  split. { apply Sy. intros q [i [ -> | [ -> | [ -> | -> ] ] ] ]; eexists; split; reflexivity. }
  split. { intros i E. rewrite G. destruct d; try discriminate E; reflexivity. }
  split. { intro E. apply Sy. intros q [i ->]. destruct d; try (contradiction E; reflexivity); eexists; split; reflexivity. }
  split. { intros i q Hq E. rewrite G. cbn [In] in Hq. decompose [or] Hq; subst; try contradiction; destruct d; try discriminate E; reflexivity. }
  split. { intro E. apply Sy. intros q [i [f [Hf ->] ] ]. cbn [In] in Hf.
    decompose [or] Hf; subst; try contradiction; destruct d; try (contradiction E; reflexivity); eexists; split; reflexivity. }
  split. { intros i E. rewrite !G. destruct d; try discriminate E; repeat split; try reflexivity; intro U; try discriminate U; reflexivity. }
  split. { intro E. apply Sy. intros q [i ->]. destruct d; try discriminate E; eexists; split; reflexivity. }
  split. { intro E. apply Sy. intros q [i [ -> | [ -> | [ -> | -> ] ] ] ]; destruct d; try (contradiction E; reflexivity); eexists; split; reflexivity. }
  split. { intros i E. rewrite !G. destruct d; try discriminate E; split; reflexivity. }
  intro E. apply Sy. intros q [ -> | [i ->] ]; destruct d; try (contradiction E; reflexivity); eexists; split; reflexivity.
Qed.
Print Assumptions C104_dangling.

Example C104_example : forall rnd, exists a l,
  prun rnd nothing [NewVec (VI32 [5; 7]); NewSF 0; NewScript (str_of "n") [str_of "yes"]; CopyOf 0; Overwrite 0 1;
    Ask 0 (QBool 1); Ask 2 (QInt32 1); Delete 0; Delete 1; Delete 2] = Some (Ok (a, l)) /\
  l = [ANew 0; ANew 0; ANew 1; ANew 2; ADone; ABool true; AInt 7; ADone; ADone; ADone] /\
  (forall x, In x (hand a) -> x = None) /\ (forall s, In s (objs a) -> s = Gone).
Proof.
  intro rnd. eexists. eexists. split; [vm_compute; reflexivity|]. split; [reflexivity|].
  cbn [hand objs]. split; intros x H; cbn in H; decompose [or] H; subst; try reflexivity; contradiction.
Qed.

(** * C13 and C103 speak of the same settings *)

(** The vectors of C13, whose doubles are finite numbers. *)
Definition vector_of (d : sfdata) : vdata :=
  match d with
  | SBool l => VBool l | SI32 l => VI32 l | SI64 l => VI64 l | SU32 l => VU32 l | SU64 l => VU64 l
  | SReal l => VReal (map DFin l) | SStr l => VStr l
  end.
Lemma at_index_map : forall (A B : Type) (f : A -> B) l i, at_index (map f l) i = obind (at_index l i) (fun x => Ok (f x)).
Proof. intros A B f l i. unfold at_index. rewrite nth_error_map. destruct (nth_error l i); reflexivity. Qed.
Lemma obind_at : forall (A B C : Type) (f : A -> B) (k : B -> outcome C) l i,
  obind (at_index (map f l) i) k = obind (at_index l i) (fun x => k (f x)).
Proof. intros A B C f k l i. rewrite at_index_map. destruct (at_index l i); reflexivity. Qed.
(** Every reader and check of the settings of C13 is that of C103. *)
Theorem C13_readers : forall d i,
  v_count (vector_of d) = sf_count d /\
  ask_vector (vector_of d) (QBool i) = give ABool (sf_get_bool d i) /\
  ask_vector (vector_of d) (QInt i) = give AInt (sf_get_integer d i) /\
  ask_vector (vector_of d) (QInt32 i) = give AInt (sf_get_int32 d i) /\
  ask_vector (vector_of d) (QUInt32 i) = give AInt (sf_get_uint32 d i) /\
  ask_vector (vector_of d) (QInt64 i) = give AInt (sf_get_int64 d i) /\
  ask_vector (vector_of d) (QUInt64 i) = give AInt (sf_get_uint64 d i) /\
  ask_vector (vector_of d) (QScalar i) = give (fun q => AReal (DFin q)) (sf_get_scalar d i) /\
  ask_vector (vector_of d) (QString i) = give AStr (sf_get_string d i) /\
  ask_vector (vector_of d) QNumVec = give (fun l => AReals (map DFin l)) (sf_numeric_vector d) /\
  ask_vector (vector_of d) QTextVec = give AStrs (sf_text_vector d) /\
  ask_vector (vector_of d) (QIsBool (Some i)) = Ok (ABool (sf_is_bool d)) /\
  ask_vector (vector_of d) (QIsInt (Some i)) = Ok (ABool (sf_is_integer d)) /\
  ask_vector (vector_of d) (QIsInt32 (Some i)) = give ABool (sf_is_int32 d) /\
  ask_vector (vector_of d) (QIsInt64 (Some i)) = Ok (ABool (sf_is_int64 d)) /\
  ask_vector (vector_of d) (QIsUInt32 (Some i)) = give ABool (sf_is_uint32 d i) /\
  ask_vector (vector_of d) (QIsUInt64 (Some i)) = give ABool (sf_is_uint64 d i).
Proof.
  intros d i.
  assert (GI : forall i, v_get_integer (vector_of d) i = sf_get_integer d i) by (intros j; destruct d; try reflexivity; apply obind_at).
  assert (U64 : forall i, v_is_uint64 (vector_of d) i = sf_is_uint64 d i) by (intros j; destruct d; try reflexivity; apply obind_at).
  assert (II : v_is_integer (vector_of d) = sf_is_integer d) by (destruct d; reflexivity).
  cbn [ask_vector or_zero]. unfold v_get_int32, v_get_uint32, v_get_int64, v_get_uint64, v_is_int32, v_is_uint32. rewrite !GI, !U64, II.
  repeat split; try (destruct d; reflexivity).
  - destruct d; try reflexivity. apply map_length.
  - destruct d; cbn [vector_of v_get_scalar sf_get_scalar]; try reflexivity; try (destruct (at_index l i); reflexivity). rewrite at_index_map. destruct (at_index l i); reflexivity.
  - destruct d; cbn [vector_of v_numeric_vector sf_numeric_vector give v_count sf_count]; try reflexivity; rewrite ?map_app, ?map_map, ?map_length; do 3 f_equal; clear; induction l; cbn; congruence.
Qed.
Print Assumptions C13_readers.
(** So is overwriting. *)
Theorem C13_overwrites : forall d, adopt (ask_vector (vector_of d)) = obind (sf_overwrite d) (fun e => Ok (vector_of e)).
Proof.
  intros d. unfold adopt, choose_kind, sf_overwrite.
  assert (CH : forall r, check (give ABool r) = r) by (intros [| |]; reflexivity).
  assert (TI : forall r, take_int (give AInt r) = r) by (intros [| |]; reflexivity).
  destruct (C13_readers d 0) as (CN & _ & _ & _ & _ & _ & _ & _ & _ & _ & _ & B & I & I32 & I64 & U32 & U64).
  change (ask_vector (vector_of d) (QIsBool None)) with (ask_vector (vector_of d) (QIsBool (Some 0%nat))). change (ask_vector (vector_of d) (QIsInt32 None)) with (ask_vector (vector_of d) (QIsInt32 (Some 0%nat))).
  change (ask_vector (vector_of d) (QIsInt64 None)) with (ask_vector (vector_of d) (QIsInt64 (Some 0%nat))). change (ask_vector (vector_of d) (QIsUInt32 None)) with (ask_vector (vector_of d) (QIsUInt32 (Some 0%nat))).
  change (ask_vector (vector_of d) (QIsUInt64 None)) with (ask_vector (vector_of d) (QIsUInt64 (Some 0%nat))). change (ask_vector (vector_of d) (QIsNumVec None)) with (ask_vector (vector_of d) (QIsInt (Some 0%nat))).
  rewrite B, I, I32, I64, U32, U64, !CH. change (ask_vector (vector_of d) QCount) with (Ok (ANum (v_count (vector_of d)))). rewrite CN. cbn [check take_num obind].
  assert (FE : forall (A : Type) (z : A) n f g, (forall i, f i = g i) -> filled z n f = filled z n g).
  { intros A z n f g E. unfold filled. f_equal. generalize (seq 0 n). intros l. induction l as [|x l IH]; [reflexivity|]. cbn [obind_list]. rewrite E. destruct (g x); cbn [obind]; [rewrite IH|..]; reflexivity. }
  destruct (sf_is_bool d).
  { cbn [obind fill_kind]. rewrite (FE bool false _ (fun i => take_bool (ask_vector (vector_of d) (QBool i))) (sf_get_bool d)) by (intros i; destruct (C13_readers d i) as (_ & -> & _); apply CH). destruct (filled _ _ _); reflexivity. }
  destruct (sf_is_int32 d) as [[|]| |]; cbn [obind]; [| |reflexivity|reflexivity].
  { cbn [fill_kind]. rewrite (FE Z 0 _ (fun i => take_int (ask_vector (vector_of d) (QInt32 i))) (sf_get_int32 d)) by (intros i; destruct (C13_readers d i) as (_ & _ & _ & -> & _); apply TI). destruct (filled _ _ _); reflexivity. }
  destruct (sf_is_int64 d).
  { cbn [obind fill_kind]. rewrite (FE Z 0 _ (fun i => take_int (ask_vector (vector_of d) (QInt64 i))) (sf_get_int64 d)) by (intros i; destruct (C13_readers d i) as (_ & _ & _ & _ & _ & -> & _); apply TI). destruct (filled _ _ _); reflexivity. }
  destruct (sf_is_uint32 d 0) as [[|]| |]; cbn [obind]; [| |reflexivity|reflexivity].
  { cbn [fill_kind]. rewrite (FE Z 0 _ (fun i => take_int (ask_vector (vector_of d) (QUInt32 i))) (sf_get_uint32 d)) by (intros i; destruct (C13_readers d i) as (_ & _ & _ & _ & -> & _); apply TI). destruct (filled _ _ _); reflexivity. }
  destruct (sf_is_uint64 d 0) as [[|]| |]; cbn [obind]; [| |reflexivity|reflexivity].
  { cbn [fill_kind]. rewrite (FE Z 0 _ (fun i => take_int (ask_vector (vector_of d) (QUInt64 i))) (sf_get_uint64 d)) by (intros i; destruct (C13_readers d i) as (_ & _ & _ & _ & _ & _ & -> & _); apply TI). destruct (filled _ _ _); reflexivity. }
  destruct (sf_is_integer d); cbn [obind fill_kind].
  - rewrite (FE dbl (DFin 0) _ (fun i => take_real (ask_vector (vector_of d) (QScalar i))) (fun i => obind (sf_get_scalar d i) (fun q => Ok (DFin q))))
      by (intros i; destruct (C13_readers d i) as (_ & _ & _ & _ & _ & _ & _ & -> & _); destruct (sf_get_scalar d i); reflexivity).
    unfold filled. generalize (sf_count d). intros n. assert (OL : forall l, obind_list (fun i => obind (sf_get_scalar d i) (fun q => Ok (DFin q))) l = obind (obind_list (sf_get_scalar d) l) (fun x => Ok (map DFin x))).
    { induction l as [|x l IH]; [reflexivity|]. cbn [obind_list]. destruct (sf_get_scalar d x); cbn [obind]; [|reflexivity|reflexivity]. rewrite IH. destruct (obind_list (sf_get_scalar d) l); reflexivity. }
    rewrite OL. destruct (obind_list (sf_get_scalar d) (seq 0 n)); cbn [obind vector_of]; [|reflexivity|reflexivity]. rewrite map_app. do 3 f_equal. clear. induction n; cbn; congruence.
  - rewrite (FE str [] _ (fun _ => take_str (ask_vector (vector_of d) (QString 0))) (fun _ => sf_get_string d 0)) by (intros i; destruct (C13_readers d 0) as (_ & _ & _ & _ & _ & _ & _ & _ & -> & _); destruct (sf_get_string d 0); reflexivity).
    destruct (filled _ _ _); reflexivity.
Qed.
Print Assumptions C13_overwrites.
(** Copying: texts and doubles cannot be copied, the others are. *)
Theorem C13_copies : forall d h t, 
  copy_obj (h ++ [mkcell (vector_of d) true]) (OVec (Some (length h)) t) =
  match sf_copy d with
  | Ok e => Ok (Some ((h ++ [mkcell (vector_of d) true]) ++ [mkcell (vector_of e) true], OVec (Some (length (h ++ [mkcell (vector_of d) true]))) false))
  | Throw => Ok None
  | UB => UB
  end.
Proof.
  intros d h t. cbn [copy_obj]. unfold deref. rewrite nth_error_app2 by lia. rewrite Nat.sub_diag. cbn [nth_error c_data c_live]. destruct d; reflexivity.
Qed.
Print Assumptions C13_copies.
Example C13_readers_example : ask_vector (vector_of (SReal [(-7) # 2; 5]%Q)) (QInt 0) = Ok (AInt (-3)) /\ adopt (ask_vector (vector_of (SU64 [2 ^ 63]))) = Ok (VU32 [0; 0]).
Proof. split; vm_compute; reflexivity. Qed.
