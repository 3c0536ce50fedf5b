(** Model of setting objects of both kinds (texts of a script, and vectors handed over by
    the caller): their memory, their readers and type checks, copying and overwriting.
    Sources: include/softlib/Configuration.h, include/softlib/Configuration/ConfigurationSFile.h,
    src/Configuration/Setting.cpp, src/Configuration/SFile/SettingSFile.cpp,
    src/Configuration/Script/SettingScript.cpp. *)
From Verif Require Import Base SettingsModel SdtModel ScalarModel.
From Coq Require Import ZArith QArith.
Local Open Scope Z_scope.

(** * The vectors *)

(** ConfigurationSFile.h 23-31: a vector and its element type.  A double is a finite
    number, an infinity or not-a-number. *)
Inductive vdata : Type :=
| VBool (l : list bool) | VI32 (l : list Z) | VI64 (l : list Z)
| VU32 (l : list Z) | VU64 (l : list Z) | VReal (l : list dbl) | VStr (l : list str).

(** SettingSFile.cpp 202-211 [GetNumberOfValues] when a type is set. *)
Definition v_count (d : vdata) : nat :=
  match d with
  | VBool l => length l | VI32 l => length l | VI64 l => length l
  | VU32 l => length l | VU64 l => length l | VReal l => length l | VStr l => length l
  end.

(** Conversion of a double to int64_t: undefined for infinities, not-a-number and numbers out
    of range (SettingSFile.cpp 136). *)
Definition dbl_to_int64 (x : dbl) : outcome Z :=
  match x with DFin q => real_to_int64 q | _ => UB end.

(** SettingSFile.cpp 124-129 [GetBool]. *)
Definition v_get_bool (d : vdata) (i : nat) : outcome bool :=
  match d with VBool l => at_index l i | _ => Throw end.
(** SettingSFile.cpp 130-141 [GetInteger]. *)
Definition v_get_integer (d : vdata) (i : nat) : outcome Z :=
  match d with
  | VI32 l => at_index l i
  | VI64 l => at_index l i
  | VU32 l => at_index l i
  | VU64 l => obind (at_index l i) (fun z => Ok (wrap_signed 64 z))
  | VReal l => obind (at_index l i) dbl_to_int64
  | _ => Throw
  end.
(** SettingSFile.cpp 142 [GetInteger32]. *)
Definition v_get_int32 (d : vdata) (i : nat) : outcome Z :=
  obind (v_get_integer d i) (fun z => Ok (wrap_signed 32 z)).
(** SettingSFile.cpp 143 [GetUnsignedInteger32]. *)
Definition v_get_uint32 (d : vdata) (i : nat) : outcome Z :=
  obind (v_get_integer d i) (fun z => Ok (z mod 2 ^ 32)).
(** SettingSFile.cpp 144 [GetInteger64]. *)
Definition v_get_int64 (d : vdata) (i : nat) : outcome Z := v_get_integer d i.
(** SettingSFile.cpp 145 [GetUnsignedInteger64]. *)
Definition v_get_uint64 (d : vdata) (i : nat) : outcome Z :=
  obind (v_get_integer d i) (fun z => Ok (z mod 2 ^ 64)).
(** SettingSFile.cpp 146-157 [GetScalar]; integers are converted exactly here (a double
    rounds integers beyond 2^53). *)
Definition v_get_scalar (d : vdata) (i : nat) : outcome dbl :=
  match d with
  | VI32 l => obind (at_index l i) (fun z => Ok (DFin (inject_Z z)))
  | VI64 l => obind (at_index l i) (fun z => Ok (DFin (inject_Z z)))
  | VU32 l => obind (at_index l i) (fun z => Ok (DFin (inject_Z z)))
  | VU64 l => obind (at_index l i) (fun z => Ok (DFin (inject_Z z)))
  | VReal l => at_index l i
  | _ => Throw
  end.
(** SettingSFile.cpp 158-163 [GetString]. *)
Definition v_get_string (d : vdata) (i : nat) : outcome str :=
  match d with VStr l => at_index l i | _ => Throw end.
(** SettingSFile.cpp 164-194 [GetNumericVector]: made with as many zeros as there are values,
    the values are pushed behind them. *)
Definition v_numeric_vector (d : vdata) : outcome (list dbl) :=
  let v := repeat (DFin 0) (v_count d) in
  match d with
  | VI32 l => Ok (v ++ map (fun z => DFin (inject_Z z)) l)
  | VI64 l => Ok (v ++ map (fun z => DFin (inject_Z z)) l)
  | VU32 l => Ok (v ++ map (fun z => DFin (inject_Z z)) l)
  | VU64 l => Ok (v ++ map (fun z => DFin (inject_Z z)) l)
  | VReal l => Ok (v ++ l)
  | _ => Throw
  end.
(** SettingSFile.cpp 195-200 [GetTextVector]. *)
Definition v_text_vector (d : vdata) : outcome (list str) :=
  match d with VStr l => Ok l | _ => Throw end.

(** SettingSFile.cpp 220-221 [IsBool]. *)
Definition v_is_bool (d : vdata) : bool := match d with VBool _ => true | _ => false end.
(** SettingSFile.cpp 222-232 [IsInteger]. *)
Definition v_is_integer (d : vdata) : bool :=
  match d with VBool _ | VStr _ => false | _ => true end.
(** SettingSFile.cpp 233-244 [IsInteger32], with and without an index. *)
Definition v_is_int32 (d : vdata) : outcome bool :=
  if v_is_integer d then
    obind (v_get_integer d 0) (fun z => Ok ((z <=? 2 ^ 31 - 1) && (- 2 ^ 31 <=? z))%bool)
  else Ok false.
(** SettingSFile.cpp 245-246 [IsInteger64]. *)
Definition v_is_int64 (d : vdata) : bool := match d with VI64 _ => true | _ => false end.
(** A double compared with zero (SettingSFile.cpp 268). *)
Definition dbl_nonneg (x : dbl) : bool :=
  match x with DFin q => Qle_bool 0 q | DInfinity neg => negb neg | DNotANumber => false end.
(** SettingSFile.cpp 259-277 [IsUnsignedInteger64]. *)
Definition v_is_uint64 (d : vdata) (i : nat) : outcome bool :=
  match d with
  | VI32 l => obind (at_index l i) (fun z => Ok (0 <=? z))
  | VI64 l => obind (at_index l i) (fun z => Ok (0 <=? z))
  | VReal l => obind (at_index l i) (fun x => Ok (dbl_nonneg x))
  | VU32 _ => Ok true
  | VU64 _ => Ok true
  | _ => Ok false
  end.
(** SettingSFile.cpp 247-258 [IsUnsignedInteger32]. *)
Definition v_is_uint32 (d : vdata) (i : nat) : outcome bool :=
  obind (v_is_uint64 d i) (fun b =>
    if b then obind (v_get_integer d i) (fun z => Ok (z <=? 2 ^ 32 - 1)) else Ok false).
(** SettingSFile.cpp 278-281 [IsScalar]. *)
Definition v_is_scalar (d : vdata) : bool := (v_is_integer d && Nat.eqb (v_count d) 1)%bool.

(** * Queries *)

(** Configuration.h 27-65: the const members of a setting.  [None] is the overload of a type
    check without an index (or expected number of values). *)
Inductive query : Type :=
| QName | QHasName (n : str) | QTouched | QCount
| QBool (i : nat) | QInt (i : nat) | QInt32 (i : nat) | QUInt32 (i : nat)
| QInt64 (i : nat) | QUInt64 (i : nat) | QScalar (i : nat) | QString (i : nat)
| QNumVec | QTextVec
| QIsBool (i : option nat) | QIsInt (i : option nat) | QIsInt32 (i : option nat)
| QIsInt64 (i : option nat) | QIsUInt32 (i : option nat) | QIsUInt64 (i : option nat)
| QIsScalar (i : option nat) | QIsNumVec (n : option nat).

(** What a call gives back (Configuration.h 27-65); [AThrow] is an exception. *)
Inductive answer : Type :=
| AThrow | ADone | ANew (n : nat) | ANum (n : nat) | ABool (b : bool) | AInt (z : Z)
| AReal (x : dbl) | AStr (s : str) | AReals (l : list dbl) | AStrs (l : list str).

(** The answer to a query whose value was computed; Configuration.h 27-65. *)
Definition give {A} (f : A -> answer) (r : outcome A) : outcome answer :=
  match r with Ok a => Ok (f a) | Throw => Ok AThrow | UB => UB end.

(** Configuration.h 19-20, 27-28, 64-65, Setting.cpp 16-23, 56-58: the queries about the
    common part of a setting. *)
Definition ask_common (name : str) (touched : bool) (q : query) (other : outcome answer) : outcome answer :=
  match q with
  | QName => Ok (AStr name)
  | QHasName n => Ok (ABool (str_eqb name n))
  | QTouched => Ok (ABool touched)
  | _ => other
  end.

(** The index of an overload without one (SettingSFile.cpp 247, 259). *)
Definition or_zero (i : option nat) : nat := match i with Some n => n | None => 0%nat end.

(** SettingSFile.cpp 124-283 for a setting that holds the vector [d]. *)
Definition ask_vector (d : vdata) (q : query) : outcome answer :=
  match q with
  | QCount => Ok (ANum (v_count d))
  | QBool i => give ABool (v_get_bool d i)
  | QInt i => give AInt (v_get_integer d i)
  | QInt32 i => give AInt (v_get_int32 d i)
  | QUInt32 i => give AInt (v_get_uint32 d i)
  | QInt64 i => give AInt (v_get_int64 d i)
  | QUInt64 i => give AInt (v_get_uint64 d i)
  | QScalar i => give AReal (v_get_scalar d i)
  | QString i => give AStr (v_get_string d i)
  | QNumVec => give AReals (v_numeric_vector d)
  | QTextVec => give AStrs (v_text_vector d)
  | QIsBool _ => Ok (ABool (v_is_bool d))
  | QIsInt _ => Ok (ABool (v_is_integer d))
  | QIsInt32 _ => give ABool (v_is_int32 d)
  | QIsInt64 _ => Ok (ABool (v_is_int64 d))
  | QIsUInt32 i => give ABool (v_is_uint32 d (or_zero i))
  | QIsUInt64 i => give ABool (v_is_uint64 d (or_zero i))
  | QIsScalar _ => Ok (ABool (v_is_scalar d))
  | QIsNumVec _ => Ok (ABool (v_is_integer d))
  | QName | QHasName _ | QTouched => Ok AThrow (* answered by [ask_common] *)
  end.

(** SettingSFile.cpp 124-283 for a setting whose type is UNSPECIFIED: the default branches;
    the member [data] is not looked at. *)
Definition ask_none (q : query) : outcome answer :=
  match q with
  | QIsBool _ | QIsInt _ | QIsInt32 _ | QIsInt64 _ | QIsUInt32 _ | QIsUInt64 _
  | QIsScalar _ | QIsNumVec _ => Ok (ABool false)
  | _ => Ok AThrow
  end.

(** A type check of SettingScript.cpp 139-253 with or without an index. *)
Definition script_check (vals : list str) (f : list str -> nat -> outcome bool) (i : option nat) :
  outcome answer :=
  give ABool (match i with Some n => f vals n | None => only_value vals f end).

(** SettingScript.cpp 47-122, 139-277. *)
Definition ask_script (rnd : Q -> option Q) (vals : list str) (q : query) : outcome answer :=
  match q with
  | QCount => Ok (ANum (length vals))
  | QBool i => give ABool (script_get_bool vals i)
  | QInt i => give AInt (get_int64 vals i)
  | QInt32 i => give AInt (get_int32 vals i)
  | QUInt32 i => give AInt (get_uint32 vals i)
  | QInt64 i => give AInt (get_int64 vals i)
  | QUInt64 i => give AInt (get_uint64 vals i)
  | QScalar i => give AReal (get_scalar_at rnd vals i)
  | QString i => give AStr (at_index vals i)
  | QNumVec => give AReals (get_numeric_vector rnd vals)
  | QTextVec => Ok (AStrs vals)
  | QIsBool i => script_check vals script_is_bool_at i
  | QIsInt i => script_check vals is_int64_at i
  | QIsInt32 i => script_check vals is_int32_at i
  | QIsInt64 i => script_check vals is_int64_at i
  | QIsUInt32 i => script_check vals is_uint32_at i
  | QIsUInt64 i => script_check vals is_uint64_at i
  | QIsScalar i => script_check vals (is_scalar_at rnd) i
  | QIsNumVec None => give ABool (is_numeric_vector rnd vals)
  | QIsNumVec (Some n) => give ABool (is_numeric_vector_of rnd vals n)
  | QName | QHasName _ | QTouched => Ok AThrow (* answered by [ask_common] *)
  end.

(** * Objects and memory *)

(** Configuration.h 17-20, ConfigurationSFile.h 21-31, ConfigurationScript.h 50-51: a setting
    object.  An SFile setting has no constructor that sets the name; its type is that of the
    vector its pointer points at, [None] being UNSPECIFIED. *)
Inductive sobj : Type :=
| OGone
| OScript (name : str) (vals : list str) (touched : bool)
| OVec (ptr : option nat) (touched : bool).

(** A vector on the heap; the contents of a freed one are kept for the static type of the
    pointers to it only (ConfigurationSFile.h 23-31). *)
Record cell : Type := mkcell { c_data : vdata; c_live : bool }.

(** Heap, the vectors the caller has made (in order), the settings made (in order);
    ConfigurationSFile.h 33-39. *)
Record world : Type := mkworld { w_heap : list cell; w_hand : list nat; w_objs : list sobj }.

(** ConfigurationSFile.h 33-39: before anything is made. *)
Definition start : world := mkworld [] [] [].

Fixpoint set_nth {A} (l : list A) (i : nat) (x : A) : list A :=
  match l, i with
  | [], _ => []
  | _ :: r, 0%nat => x :: r
  | y :: r, S j => y :: set_nth r j x
  end.

(** Reading a vector through a pointer; a freed one must not be read (SettingSFile.cpp 124-215). *)
Definition deref (h : list cell) (p : nat) : outcome vdata :=
  match nth_error h p with
  | Some c => if c_live c then Ok (c_data c) else UB
  | None => UB
  end.

(** [delete] of a vector; deleting twice is undefined (SettingSFile.cpp 20-30). *)
Definition free (h : list cell) (p : nat) : outcome (list cell) :=
  match nth_error h p with
  | Some c => if c_live c then Ok (set_nth h p (mkcell (c_data c) false)) else UB
  | None => UB
  end.

(** SettingSFile.cpp 19-33 [DeleteCurrent]; the caller then has a setting of type UNSPECIFIED. *)
Definition delete_current (h : list cell) (ptr : option nat) : outcome (list cell) :=
  match ptr with Some p => free h p | None => Ok h end.

(** SettingSFile.cpp 15-17, SettingScript.cpp 24: the destructors. *)
Definition destroy (h : list cell) (o : sobj) : outcome (list cell) :=
  match o with OVec ptr _ => delete_current h ptr | _ => Ok h end.

(** Whether a query reads the vector of an SFile setting that points at one like [d]; the
    others are settled by the type (SettingSFile.cpp 125, 131-140, 147-156, 159, 165, 196,
    203-214, 220-232, 234, 245-246, 250-253, 262-276, 279, 282-283). *)
Definition reads (d : vdata) (q : query) : bool :=
  match q with
  | QName | QHasName _ | QTouched => false
  | QCount | QNumVec => true
  | QBool _ => v_is_bool d
  | QInt _ | QInt32 _ | QUInt32 _ | QInt64 _ | QUInt64 _ | QScalar _ => v_is_integer d
  | QString _ | QTextVec => match d with VStr _ => true | _ => false end
  | QIsBool _ | QIsInt _ | QIsInt64 _ | QIsNumVec _ => false
  | QIsInt32 _ | QIsUInt32 _ | QIsScalar _ => v_is_integer d
  | QIsUInt64 _ => match d with VI32 _ | VI64 _ | VReal _ => true | _ => false end
  end.

(** A const member called on a setting object (Configuration.h 27-65). *)
Definition ask (rnd : Q -> option Q) (h : list cell) (o : sobj) (q : query) : outcome answer :=
  match o with
  | OGone => UB
  | OScript name vals t => ask_common name t q (ask_script rnd vals q)
  | OVec None t => ask_common [] t q (ask_none q)
  | OVec (Some p) t =>
      ask_common [] t q
        (match nth_error h p with
         | Some c => if (reads (c_data c) q && negb (c_live c))%bool then UB
                     else ask_vector (c_data c) q
         | None => UB
         end)
  end.

(** * Overwriting *)

(** The kind of vector made by [OverwriteValues] (SettingSFile.cpp 59-101). *)
Inductive kind : Type := KBool | KI32 | KI64 | KU32 | KU64 | KReal | KStr.

(** A check asked from the source [s]; only booleans come back (SettingSFile.cpp 59-89). *)
Definition check (a : outcome answer) : outcome bool :=
  match a with Ok (ABool b) => Ok b | UB => UB | _ => Throw end.

(** SettingSFile.cpp 59, 65, 71, 77, 83, 89, 95: the first check that says yes.  [typeid(s)]
    on line 43 is the type of the expression [s], [const Setting *], never [SettingSFile *]:
    lines 44-57 are dead. *)
Definition choose_kind (a : query -> outcome answer) : outcome kind :=
  obind (check (a (QIsBool None))) (fun b => if b then Ok KBool else
  obind (check (a (QIsInt32 None))) (fun b => if b then Ok KI32 else
  obind (check (a (QIsInt64 None))) (fun b => if b then Ok KI64 else
  obind (check (a (QIsUInt32 None))) (fun b => if b then Ok KU32 else
  obind (check (a (QIsUInt64 None))) (fun b => if b then Ok KU64 else
  obind (check (a (QIsNumVec None))) (fun b => if b then Ok KReal else Ok KStr)))))).

(** The values asked from the source (SettingSFile.cpp 60-98). *)
Definition take_num (a : outcome answer) : outcome nat :=
  match a with Ok (ANum n) => Ok n | UB => UB | _ => Throw end.
Definition take_bool (a : outcome answer) : outcome bool := check a.
Definition take_int (a : outcome answer) : outcome Z :=
  match a with Ok (AInt z) => Ok z | UB => UB | _ => Throw end.
Definition take_real (a : outcome answer) : outcome dbl :=
  match a with Ok (AReal x) => Ok x | UB => UB | _ => Throw end.
Definition take_str (a : outcome answer) : outcome str :=
  match a with Ok (AStr x) => Ok x | UB => UB | _ => Throw end.

(** SettingSFile.cpp 60-63, 66-69, 72-75, 78-81, 84-87, 90-93, 96-99: a vector made with [n]
    zeros, [n] values pushed behind them; the texts are all [GetString()], that is number 0. *)
Definition fill_kind (a : query -> outcome answer) (n : nat) (k : kind) : outcome vdata :=
  match k with
  | KBool => obind (filled false n (fun i => take_bool (a (QBool i)))) (fun l => Ok (VBool l))
  | KI32 => obind (filled 0 n (fun i => take_int (a (QInt32 i)))) (fun l => Ok (VI32 l))
  | KI64 => obind (filled 0 n (fun i => take_int (a (QInt64 i)))) (fun l => Ok (VI64 l))
  | KU32 => obind (filled 0 n (fun i => take_int (a (QUInt32 i)))) (fun l => Ok (VU32 l))
  | KU64 => obind (filled 0 n (fun i => take_int (a (QUInt64 i)))) (fun l => Ok (VU64 l))
  | KReal => obind (filled (DFin 0) n (fun i => take_real (a (QScalar i)))) (fun l => Ok (VReal l))
  | KStr => obind (filled [] n (fun _ => take_str (a (QString 0)))) (fun l => Ok (VStr l))
  end.

(** The vector that leaks when reading the source throws half-way; nobody can look into it
    (SettingSFile.cpp 60-99). *)
Definition leaked : cell := mkcell (VBool []) true.

(** SettingSFile.cpp 288-336: the seven [SetValue...]: the old vector is deleted, then the
    pointer is stored. *)
Definition set_value (h : list cell) (ptr : option nat) (p : nat) : outcome (list cell * option nat) :=
  obind (delete_current h ptr) (fun h1 => Ok (h1, Some p)).

(** * Programs *)

(** The calls of a program.  Vectors and settings are named by the order in which the program
    made them (ConfigurationSFile.h 33-85, ConfigurationScript.h 54-62, Configuration.h 64). *)
Inductive op : Type :=
| NewVec (d : vdata)                 (* new std::vector<...>(...) by the caller *)
| FreeVec (v : nat)                  (* delete of such a vector by the caller *)
| NewSF (v : nat)                    (* new SettingSFile(vector) *)
| NewScript (name : str) (vals : list str)
| NewFrom (o : nat)                  (* new SettingScript(setting) *)
| Append (o : nat) (s : str)
| SetValue (o : nat) (v : nat)
| DelCurrent (o : nat)
| Overwrite (o src : nat)
| CopyOf (o : nat)
| Delete (o : nat)
| TouchIt (o : nat)
| Ask (o : nat) (q : query).

(** SettingSFile.cpp 108-119 [Copy]: REAL and STRING are missing; SettingScript.cpp 40-42, 15.
    The name of an SFile setting is not copied; neither is the mark of [Touch]. *)
Definition copy_obj (h : list cell) (o : sobj) : outcome (option (list cell * sobj)) :=
  match o with
  | OGone => UB
  | OScript name vals _ => Ok (Some (h, OScript name vals false))
  | OVec None _ => Ok None
  | OVec (Some p) _ =>
      match nth_error h p with
      | Some c =>
          match c_data c with
          | VReal _ | VStr _ => Ok None
          | _ => obind (deref h p) (fun d =>
                   Ok (Some (h ++ [mkcell d true], OVec (Some (length h)) false)))
          end
      | None => UB
      end
  end.

(** ConfigurationSFile.h 33-85, ConfigurationScript.h 54-62, Configuration.h 64: a new object at
    the end of the list. *)
Definition add_obj (h : list cell) (w : world) (o : sobj) : outcome (world * answer) :=
  Ok (mkworld h (w_hand w) (w_objs w ++ [o]), ANew (length (w_objs w))).
(** An object changed in place (SettingSFile.cpp 42-103, 288-336, SettingScript.cpp 32-35, 130-132). *)
Definition put_obj (h : list cell) (w : world) (i : nat) (o : sobj) : outcome (world * answer) :=
  Ok (mkworld h (w_hand w) (set_nth (w_objs w) i o), ADone).

(** The setting or vector with a number; there must be one (ConfigurationSFile.h 33-85). *)
Definition get {A} (l : list A) (i : nat) : outcome A :=
  match nth_error l i with Some x => Ok x | None => UB end.

(** SettingSFile.cpp 42-103 and SettingScript.cpp 130-132 [OverwriteValues]. *)
Definition overwrite (rnd : Q -> option Q) (w : world) (i : nat) (o s : sobj) : outcome (world * answer) :=
  let a := ask rnd (w_heap w) s in
  match o with
  | OGone => UB
  | OScript name vals t =>
      match a QTextVec with
      | Ok (AStrs l) => put_obj (w_heap w) w i (OScript name l t)
      | UB => UB
      | _ => Ok (w, AThrow)
      end
  | OVec ptr t =>
      match choose_kind a with
      | UB => UB
      | Throw => Ok (w, AThrow)
      | Ok k =>
          match take_num (a QCount) with
          | UB => UB
          | Throw => Ok (w, AThrow)
          | Ok n =>
              match fill_kind a n k with
              | UB => UB
              | Throw => Ok (mkworld (w_heap w ++ [leaked]) (w_hand w) (w_objs w), AThrow)
              | Ok d =>
                  obind (set_value (w_heap w ++ [mkcell d true]) ptr (length (w_heap w))) (fun r =>
                    put_obj (fst r) w i (OVec (snd r) t))
              end
          end
      end
  end.

(** One call of a program; ConfigurationSFile.h 33-85, ConfigurationScript.h 54-62,
    Configuration.h 27-65, Setting.cpp 47-49. *)
Definition step (rnd : Q -> option Q) (w : world) (c : op) : outcome (world * answer) :=
  match c with
  | NewVec d =>
      Ok (mkworld (w_heap w ++ [mkcell d true]) (w_hand w ++ [length (w_heap w)]) (w_objs w),
          ANew (length (w_hand w)))
  | FreeVec v =>
      obind (get (w_hand w) v) (fun p => obind (free (w_heap w) p) (fun h =>
        Ok (mkworld h (w_hand w) (w_objs w), ADone)))
  | NewSF v =>
      obind (get (w_hand w) v) (fun p => add_obj (w_heap w) w (OVec (Some p) false))
  | NewScript name vals => add_obj (w_heap w) w (OScript name vals false)
  | NewFrom i =>
      obind (get (w_objs w) i) (fun s =>
        match ask rnd (w_heap w) s QName, ask rnd (w_heap w) s QTextVec with
        | Ok (AStr name), Ok (AStrs l) => add_obj (w_heap w) w (OScript name l false)
        | UB, _ => UB
        | _, UB => UB
        | _, _ => Ok (w, AThrow)
        end)
  | Append i s =>
      obind (get (w_objs w) i) (fun o =>
        match o with
        | OScript name vals t => put_obj (w_heap w) w i (OScript name (vals ++ [s]) t)
        | _ => UB
        end)
  | SetValue i v =>
      obind (get (w_objs w) i) (fun o => obind (get (w_hand w) v) (fun p =>
        match o with
        | OVec ptr t => obind (set_value (w_heap w) ptr p) (fun r => put_obj (fst r) w i (OVec (snd r) t))
        | _ => UB
        end))
  | DelCurrent i =>
      obind (get (w_objs w) i) (fun o =>
        match o with
        | OVec ptr t => obind (delete_current (w_heap w) ptr) (fun h => put_obj h w i (OVec None t))
        | _ => UB
        end)
  | Overwrite i j =>
      obind (get (w_objs w) i) (fun o => obind (get (w_objs w) j) (fun s => overwrite rnd w i o s))
  | CopyOf i =>
      obind (get (w_objs w) i) (fun o => obind (copy_obj (w_heap w) o) (fun r =>
        match r with
        | Some (h, o') => add_obj h w o'
        | None => Ok (w, AThrow)
        end))
  | Delete i =>
      obind (get (w_objs w) i) (fun o =>
        match o with
        | OGone => UB
        | _ => obind (destroy (w_heap w) o) (fun h => put_obj h w i OGone)
        end)
  | TouchIt i =>
      obind (get (w_objs w) i) (fun o =>
        match o with
        | OGone => UB
        | OScript name vals _ => put_obj (w_heap w) w i (OScript name vals true)
        | OVec ptr _ => put_obj (w_heap w) w i (OVec ptr true)
        end)
  | Ask i q =>
      obind (get (w_objs w) i) (fun o => obind (ask rnd (w_heap w) o q) (fun a => Ok (w, a)))
  end.

(** A program: its calls in order, and what they gave back (ConfigurationSFile.h 33-85). *)
Fixpoint run (rnd : Q -> option Q) (w : world) (p : list op) : outcome (world * list answer) :=
  match p with
  | [] => Ok (w, [])
  | c :: r => obind (step rnd w c) (fun x =>
                obind (run rnd (fst x) r) (fun y => Ok (fst y, snd x :: snd y)))
  end.
