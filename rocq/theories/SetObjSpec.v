(** Vocabulary for the properties of setting objects: the values a vector holds, and settings
    that are plain values (every setting has contents of its own, nothing is ever freed). *)
From Verif Require Import Base SettingsModel ScalarModel SetObjModel.
From Coq Require Import ZArith QArith.
Local Open Scope Z_scope.

(** * Values *)

(** The values of a vector, whatever its element type. *)
Inductive value : Type := XBool (b : bool) | XNum (x : dbl) | XText (s : str).
Inductive sort : Type := Truths | Numbers | Texts.

Definition sort_of (d : vdata) : sort :=
  match d with VBool _ => Truths | VStr _ => Texts | _ => Numbers end.
Definition values_of (d : vdata) : list value :=
  match d with
  | VBool l => map XBool l
  | VI32 l | VI64 l | VU32 l | VU64 l => map (fun z => XNum (DFin (inject_Z z))) l
  | VReal l => map XNum l
  | VStr l => map XText l
  end.
Definition unsigned (d : vdata) : bool := match d with VU32 _ | VU64 _ => true | _ => false end.
Definition is_real (d : vdata) : bool := match d with VReal _ => true | _ => false end.

(** What the element types can hold. *)
Definition wf_data (d : vdata) : Prop :=
  match d with
  | VI32 l => Forall (fun z => - 2 ^ 31 <= z < 2 ^ 31) l
  | VI64 l => Forall (fun z => - 2 ^ 63 <= z < 2 ^ 63) l
  | VU32 l => Forall (fun z => 0 <= z < 2 ^ 32) l
  | VU64 l => Forall (fun z => 0 <= z < 2 ^ 64) l
  | _ => True
  end.

(** [t] is the integer part of [q]. *)
Definition int_part (q : Q) (t : Z) : Prop :=
  ((0 <= q -> inject_Z t <= q /\ q < inject_Z (t + 1)) /\
   (q <= 0 -> q <= inject_Z t /\ inject_Z (t - 1) < q))%Q.

(** [z] is what is left of [t] in [lo .. hi - 1] when multiples of 2^bits are dropped. *)
Definition folded (bits lo hi t z : Z) : Prop := lo <= z < hi /\ (2 ^ bits | z - t).

(** An integer reader of one of the four widths. *)
Inductive int_reader : query -> nat -> Z -> Z -> Z -> Prop :=
| rd_int : forall i, int_reader (QInt i) i 64 (- 2 ^ 63) (2 ^ 63)
| rd_int64 : forall i, int_reader (QInt64 i) i 64 (- 2 ^ 63) (2 ^ 63)
| rd_uint64 : forall i, int_reader (QUInt64 i) i 64 0 (2 ^ 64)
| rd_int32 : forall i, int_reader (QInt32 i) i 32 (- 2 ^ 31) (2 ^ 31)
| rd_uint32 : forall i, int_reader (QUInt32 i) i 32 0 (2 ^ 32).

(** A number at least zero; not-a-number is not. *)
Definition at_least_zero (x : dbl) : Prop :=
  match x with DFin q => (0 <= q)%Q | DInfinity neg => neg = false | DNotANumber => False end.

(** * Settings as plain values *)

Inductive shown : Type :=
| Gone
| Script (name : str) (vals : list str) (touched : bool)
| Vec (d : option vdata) (touched : bool).

(** The vectors the caller still owns ([None]: given to a setting, or deleted) and the settings. *)
Record plain : Type := mkplain { hand : list (option vdata); objs : list shown }.
Definition nothing : plain := mkplain [] [].

Definition view (rnd : Q -> option Q) (s : shown) (q : query) : outcome answer :=
  match s with
  | Gone => UB
  | Script name vals t => ask_common name t q (ask_script rnd vals q)
  | Vec None t => ask_common [] t q (ask_none q)
  | Vec (Some d) t => ask_common [] t q (ask_vector d q)
  end.

(** The vector [OverwriteValues] makes from what the source shows. *)
Definition adopt (a : query -> outcome answer) : outcome vdata :=
  obind (choose_kind a) (fun k => obind (take_num (a QCount)) (fun n => fill_kind a n k)).

(** One call.  [None]: the program breaks the rules: it uses a vector it has given away or a
    setting it has deleted, or one that was never made, or calls a member the class lacks. *)
Definition pstep (rnd : Q -> option Q) (a : plain) (c : op) : option (outcome (plain * answer)) :=
  let ok h o r := Some (Ok (mkplain h o, r)) in
  match c with
  | NewVec d => ok (hand a ++ [Some d]) (objs a) (ANew (length (hand a)))
  | FreeVec v =>
      match nth_error (hand a) v with
      | Some (Some _) => ok (set_nth (hand a) v None) (objs a) ADone
      | _ => None
      end
  | NewSF v =>
      match nth_error (hand a) v with
      | Some (Some d) => ok (set_nth (hand a) v None) (objs a ++ [Vec (Some d) false]) (ANew (length (objs a)))
      | _ => None
      end
  | NewScript name vals => ok (hand a) (objs a ++ [Script name vals false]) (ANew (length (objs a)))
  | NewFrom i =>
      match nth_error (objs a) i with
      | Some (Script name vals _) => ok (hand a) (objs a ++ [Script name vals false]) (ANew (length (objs a)))
      | Some (Vec (Some (VStr l)) _) => ok (hand a) (objs a ++ [Script [] l false]) (ANew (length (objs a)))
      | Some (Vec _ _) => ok (hand a) (objs a) AThrow
      | _ => None
      end
  | Append i s =>
      match nth_error (objs a) i with
      | Some (Script name vals t) => ok (hand a) (set_nth (objs a) i (Script name (vals ++ [s]) t)) ADone
      | _ => None
      end
  | SetValue i v =>
      match nth_error (objs a) i, nth_error (hand a) v with
      | Some (Vec _ t), Some (Some d) =>
          ok (set_nth (hand a) v None) (set_nth (objs a) i (Vec (Some d) t)) ADone
      | _, _ => None
      end
  | DelCurrent i =>
      match nth_error (objs a) i with
      | Some (Vec _ t) => ok (hand a) (set_nth (objs a) i (Vec None t)) ADone
      | _ => None
      end
  | Overwrite i j =>
      match nth_error (objs a) i, nth_error (objs a) j with
      | Some _, Some Gone => None
      | Some (Script name vals t), Some (Script _ l _) =>
          ok (hand a) (set_nth (objs a) i (Script name l t)) ADone
      | Some (Script name vals t), Some (Vec (Some (VStr l)) _) =>
          ok (hand a) (set_nth (objs a) i (Script name l t)) ADone
      | Some (Script _ _ _), Some _ => ok (hand a) (objs a) AThrow
      | Some (Vec _ t), Some s =>
          match adopt (view rnd s) with
          | Ok d => ok (hand a) (set_nth (objs a) i (Vec (Some d) t)) ADone
          | Throw => ok (hand a) (objs a) AThrow
          | UB => Some UB
          end
      | _, _ => None
      end
  | CopyOf i =>
      match nth_error (objs a) i with
      | Some (Script name vals _) => ok (hand a) (objs a ++ [Script name vals false]) (ANew (length (objs a)))
      | Some (Vec (Some d) _) =>
          match d with
          | VReal _ | VStr _ => ok (hand a) (objs a) AThrow
          | _ => ok (hand a) (objs a ++ [Vec (Some d) false]) (ANew (length (objs a)))
          end
      | Some (Vec None _) => ok (hand a) (objs a) AThrow
      | _ => None
      end
  | Delete i =>
      match nth_error (objs a) i with
      | Some Gone | None => None
      | Some _ => ok (hand a) (set_nth (objs a) i Gone) ADone
      end
  | TouchIt i =>
      match nth_error (objs a) i with
      | Some (Script name vals _) => ok (hand a) (set_nth (objs a) i (Script name vals true)) ADone
      | Some (Vec d _) => ok (hand a) (set_nth (objs a) i (Vec d true)) ADone
      | _ => None
      end
  | Ask i q =>
      match nth_error (objs a) i with
      | Some Gone | None => None
      | Some s => Some (obind (view rnd s q) (fun r => Ok (a, r)))
      end
  end.

Fixpoint prun (rnd : Q -> option Q) (a : plain) (p : list op) : option (outcome (plain * list answer)) :=
  match p with
  | [] => Some (Ok (a, []))
  | c :: r =>
      match pstep rnd a c with
      | Some (Ok (a1, x)) =>
          match prun rnd a1 r with
          | Some (Ok (a2, l)) => Some (Ok (a2, x :: l))
          | y => y
          end
      | Some Throw => Some Throw
      | Some UB => Some UB
      | None => None
      end
  end.

(** Vectors in memory, and vectors held by the caller or by a setting. *)
Definition in_memory (w : world) : nat := length (filter c_live (w_heap w)).
Definition held (a : plain) : nat :=
  (length (filter (fun h => match h with Some _ => true | None => false end) (hand a))
   + length (filter (fun s => match s with Vec (Some _) _ => true | _ => false end) (objs a)))%nat.

(** * Overwriting *)

Definition zero_of (s : sort) : value :=
  match s with Truths => XBool false | Numbers => XNum (DFin 0) | Texts => XText [] end.

(** What value number [i] of a vector like [d], made from a source that answers [a], has to be:
    the answer to the reader of that element type; for texts always that for number 0. *)
Definition taken (a : query -> outcome answer) (d : vdata) (i : nat) (x : value) : Prop :=
  match d with
  | VBool _ => exists b, a (QBool i) = Ok (ABool b) /\ x = XBool b
  | VI32 _ => exists z, a (QInt32 i) = Ok (AInt z) /\ x = XNum (DFin (inject_Z z))
  | VI64 _ => exists z, a (QInt64 i) = Ok (AInt z) /\ x = XNum (DFin (inject_Z z))
  | VU32 _ => exists z, a (QUInt32 i) = Ok (AInt z) /\ x = XNum (DFin (inject_Z z))
  | VU64 _ => exists z, a (QUInt64 i) = Ok (AInt z) /\ x = XNum (DFin (inject_Z z))
  | VReal _ => exists y, a (QScalar i) = Ok (AReal y) /\ x = XNum y
  | VStr _ => exists s, a (QString 0) = Ok (AStr s) /\ x = XText s
  end.

(** The checks a source answers with no before the element type of [d] is taken, and the one it
    answers with yes. *)
Definition yes (a : query -> outcome answer) (q : query) : Prop := a q = Ok (ABool true).
Definition no (a : query -> outcome answer) (q : query) : Prop := a q = Ok (ABool false).
Definition type_taken (a : query -> outcome answer) (d : vdata) : Prop :=
  match d with
  | VBool _ => yes a (QIsBool None)
  | _ => no a (QIsBool None) /\
    match d with
    | VI32 _ => yes a (QIsInt32 None)
    | _ => no a (QIsInt32 None) /\
      match d with
      | VI64 _ => yes a (QIsInt64 None)
      | _ => no a (QIsInt64 None) /\
        match d with
        | VU32 _ => yes a (QIsUInt32 None)
        | _ => no a (QIsUInt32 None) /\
          match d with
          | VU64 _ => yes a (QIsUInt64 None)
          | _ => no a (QIsUInt64 None) /\
            match d with
            | VReal _ => yes a (QIsNumVec None)
            | _ => no a (QIsNumVec None)
            end
          end
        end
      end
    end
  end.
