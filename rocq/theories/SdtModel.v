(** Model of the SDT text format: writing variables, loading a file and the read calls.
    Sources: src/SFile/SFile_SDT.cpp, src/SFile/SFile_SDT.load.cpp and the generic
    readers of src/SFile/SFile.cpp.
    Finite doubles are exact rationals; the rounding done by the C library when a decimal
    text is read is the parameter [rnd] ([None]: out of range). *)
From Verif Require Import Base SettingsModel.
From Coq Require Import ZArith QArith.
Local Open Scope Z_scope.

(** * Text output of numbers *)

(** std::ostream, decimal digits of a non-negative integer, least significant first
    (SFile_SDT.cpp:329, 333, 418, 422). *)
Fixpoint digits_rev (fuel : nat) (z : Z) : str :=
  match fuel with
  | O => []
  | S f => ascii_of_nat (Z.to_nat (z mod 10) + 48) :: (if z <? 10 then [] else digits_rev f (z / 10))
  end.
(** SFile_SDT.cpp:329, 333, 418, 422. *)
Definition show_nat (z : Z) : str := rev (digits_rev (S (Z.to_nat (Z.log2 z))) z).
(** [sdtfile << int] (SFile_SDT.cpp:329, 333, 418, 422). *)
Definition show_int (z : Z) : str := if z <? 0 then "-"%char :: show_nat (- z) else show_nat z.

(** [sdtfile << double] with the default format: "%g" with six significant digits. *)
(** Largest [k < fuel] such that [d * 10^k <= n] (SFile_SDT.cpp:333, 374). *)
Fixpoint ilog10_up (fuel : nat) (n d : Z) : Z :=
  match fuel with
  | O => 0
  | S f => if d * 10 <=? n then 1 + ilog10_up f n (d * 10) else 0
  end.
(** Smallest [k < fuel] such that [d <= n * 10^k] (SFile_SDT.cpp:333, 374). *)
Fixpoint ilog10_down (fuel : nat) (n d : Z) : Z :=
  match fuel with
  | O => 0
  | S f => if d <=? n then 0 else 1 + ilog10_down f (n * 10) d
  end.
(** SFile_SDT.cpp:333, 374. *)
Definition ilog10 (n d : Z) : Z :=
  if d <=? n then ilog10_up (S (Z.to_nat (Z.log2 n))) n d
  else - ilog10_down (S (Z.to_nat (Z.log2 d))) n d.
(** Division rounded to nearest, ties to even (SFile_SDT.cpp:333, 374). *)
Definition div_even (n d : Z) : Z :=
  let f := n / d in let r := n mod d in
  if 2 * r <? d then f else if d <? 2 * r then f + 1 else if Z.even f then f else f + 1.
(** Six significant digits and decimal exponent of the positive number n/d:
    n/d is close to M * 10^(X-5), with 10^5 <= M < 10^6 (SFile_SDT.cpp:333, 374). *)
Definition sig6 (n d : Z) : Z * Z :=
  let X := ilog10 n d in
  let M := if X <=? 5 then div_even (n * 10 ^ (5 - X)) d else div_even n (d * 10 ^ (X - 5)) in
  if M =? 1000000 then (100000, X + 1) else (M, X).

(** Trailing zeros are removed; [dot] is written only before remaining digits
    (SFile_SDT.cpp:333, 374). *)
Fixpoint strip_zeros (rs : str) : str :=
  match rs with
  | c :: r => if Ascii.eqb c "0"%char then strip_zeros r else rs
  | [] => []
  end.
(** SFile_SDT.cpp:333, 374. *)
Definition drop_trailing_zeros (s : str) : str := rev (strip_zeros (rev s)).
(** SFile_SDT.cpp:333, 374. *)
Definition with_point (ip fp : str) : str :=
  match drop_trailing_zeros fp with [] => ip | f => ip ++ "."%char :: f end.
(** SFile_SDT.cpp:333, 374. *)
Definition show_pos (n d : Z) : str :=
  let '(M, X) := sig6 n d in
  let ds := show_nat M in
  if ((X <? -4) || (6 <=? X))%bool then
    with_point (firstn 1 ds) (skipn 1 ds) ++ "e"%char :: (if X <? 0 then "-"%char else "+"%char)
      :: (if Z.abs X <? 10 then "0"%char :: show_nat (Z.abs X) else show_nat (Z.abs X))
  else if 0 <=? X then with_point (firstn (Z.to_nat X + 1) ds) (skipn (Z.to_nat X + 1) ds)
  else with_point ["0"%char] (repeat "0"%char (Z.to_nat (- X) - 1) ++ ds).
(** SFile_SDT.cpp:333, 374. *)
Definition show_double (q : Q) : str :=
  if Qnum q =? 0 then ["0"%char]
  else if Qnum q <? 0 then "-"%char :: show_pos (- Qnum q) (Zpos (Qden q))
  else show_pos (Qnum q) (Zpos (Qden q)).

(** Doubles that are not numbers or not finite, with their sign bit (SFile_SDT.cpp:333, 374). *)
Inductive nonfin : Type := NaN (neg : bool) | Inf (neg : bool).
(** [sdtfile << double] for those (SFile_SDT.cpp:333, 374). *)
Definition show_nonfin (x : nonfin) : str :=
  match x with
  | NaN neg => if neg then str_of "-nan" else str_of "nan"
  | Inf neg => if neg then str_of "-inf" else str_of "inf"
  end.
(** An element of an array handed to one of the Write functions (SFile_SDT.cpp:326-356). *)
Inductive snum : Type := NInt (z : Z) | NDbl (q : Q) | NNon (x : nonfin).
(** SFile_SDT.cpp:326-356. *)
Definition show_num (x : snum) : str :=
  match x with NInt z => show_int z | NDbl q => show_double q | NNon x => show_nonfin x end.

(** * Writing (SFile_SDT.cpp) *)

(** SFile_SDT.cpp:116-120 [GetAttributeName]. *)
Definition attr_name (dset name : str) : str := dset ++ "_"%char :: name.

(** SFile_SDT.cpp:332-334: one row. *)
Definition write_row (row : list snum) : str := flat_map (fun x => show_num x ++ [cSP]) row ++ [cNL].
(** SFile_SDT.cpp:327-340 [WriteNumArray], called by lines 342-356, 398-415. *)
Definition write_matrix (name : str) (ncols : nat) (rows : list (list snum)) : str :=
  str_of "@matrix " ++ name ++ cSP :: show_int (Z.of_nat (length rows)) ++ cSP :: show_int (Z.of_nat ncols)
    ++ cNL :: flat_map write_row rows ++ [cNL].
(** SFile_SDT.cpp:371-375 [WriteAttribute_scalar]. *)
Definition write_attr_scalar (dset name : str) (v : Q) : str :=
  str_of "@matrix " ++ attr_name dset name ++ str_of " 1 1" ++ cNL :: show_double v ++ [cNL; cNL].
(** The same for a value that is not finite (SFile_SDT.cpp:371-375). *)
Definition write_attr_nonfin (dset name : str) (x : nonfin) : str :=
  str_of "@matrix " ++ attr_name dset name ++ str_of " 1 1" ++ cNL :: show_nonfin x ++ [cNL; cNL].
(** [(int)c] for a char (signed on the platforms softlib targets) (SFile_SDT.cpp:422). *)
Definition char_code (c : ascii) : Z :=
  let n := Z.of_nat (nat_of_ascii c) in if n <? 128 then n else n - 256.
(** SFile_SDT.cpp:417-425 [WriteString]. *)
Definition write_string (name v : str) : str :=
  str_of "@string " ++ name ++ cSP :: show_int (Z.of_nat (length v))
    ++ cNL :: flat_map (fun c => show_int (char_code c) ++ [cSP]) v ++ [cNL; cNL].

(** The write calls of the public interface (SFile_SDT.cpp:324-425). *)
Inductive wcall : Type :=
| WArray (name : str) (ncols : nat) (rows : list (list snum))     (* 342-356 *)
| WImage (name : str) (pixels : nat) (rows : list (list snum))    (* 397-399 *)
| WList (name : str) (l : list snum)                              (* 401-415 *)
| WScalar (name : str) (v : snum)                                 (* SFile.cpp:320-322 *)
| WString (name v : str)
| WAttrScalar (dset name : str) (v : Q)
| WAttrNonfin (dset name : str) (x : nonfin)                      (* 371-375 *)
| WAttrString (dset name v : str)                                (* 376-379 *)
| WStruct (name : str).                                          (* 324 *)
(** SFile_SDT.cpp:324-425. *)
Definition write_call (c : wcall) : str :=
  match c with
  | WArray n nc rows => write_matrix n nc rows
  | WImage n px rows => write_matrix n px rows
  | WList n l => write_matrix n (length l) [l]
  | WScalar n v => write_matrix n 1 [[v]]
  | WString n v => write_string n v
  | WAttrScalar d n v => write_attr_scalar d n v
  | WAttrNonfin d n x => write_attr_nonfin d n x
  | WAttrString d n v => write_string (attr_name d n) v
  | WStruct _ => []
  end.
(** SFile_SDT.cpp:324-425. *)
Definition write_file (cs : list wcall) : str := flat_map write_call cs.

(** * Loading (SFile_SDT.load.cpp) *)

(** The lines that std::getline returns one after another; text after the last
    newline is a line of its own unless it is empty (SFile_SDT.load.cpp:19, 67, 100). *)
Fixpoint lines_acc (cur : str) (s : str) : list str :=
  match s with
  | [] => match cur with [] => [] | _ => [rev cur] end
  | c :: r => if Ascii.eqb c cNL then rev cur :: lines_acc [] r else lines_acc (c :: cur) r
  end.
(** SFile_SDT.load.cpp:19, 67, 100. *)
Definition lines_of (s : str) : list str := lines_acc [] s.

(** [ss >> std::string] (SFile_SDT.load.cpp:24, 30, 41). *)
Fixpoint take_word (s : str) : str * str :=
  match s with
  | [] => ([], [])
  | c :: r => if is_space c then ([], s) else let (w, r') := take_word r in (c :: w, r')
  end.
(** SFile_SDT.load.cpp:24, 30, 41. *)
Definition get_word (s : str) : option (str * str) :=
  match take_word (skip_spaces s) with
  | ([], _) => None
  | p => Some p
  end.
(** [ss >> unsigned long long] and [ss >> int]: as strtoull/strtol with range check
    (SFile_SDT.load.cpp:33, 44). *)
Definition get_u64 (s : str) : option (Z * str) :=
  match sto_unsigned64 s with Ok p => Some p | _ => None end.
(** SFile_SDT.load.cpp:103. *)
Definition get_i32 (s : str) : option (Z * str) :=
  match sto_signed 32 s with Ok p => Some p | _ => None end.

(** [ss >> double]: the longest text of the form sign digits . digits e sign digits is
    collected (std::num_get); it must be a complete number (SFile_SDT.load.cpp:74). *)
Definition take_sign (s : str) : bool * str :=
  match s with
  | c :: r => if Ascii.eqb c "-"%char then (true, r)
              else if Ascii.eqb c "+"%char then (false, r) else (false, s)
  | [] => (false, s)
  end.
(** SFile_SDT.load.cpp:74. *)
Definition dec_value (neg : bool) (m e : Z) : Q :=
  let m' := if neg then - m else m in
  if 0 <=? e then inject_Z (m' * 10 ^ e) else m' # Z.to_pos (10 ^ (- e)).
(** SFile_SDT.load.cpp:74. *)
Definition parse_exponent (s : str) : option (Z * str) :=
  match s with
  | c :: r => if (Ascii.eqb c "e"%char || Ascii.eqb c "E"%char)%bool then
                let '(neg, r1) := take_sign r in
                let '(e, any, r2) := take_digits 0 false r1 in
                if any then Some ((if neg then - e else e), r2) else None
              else Some (0, s)
  | [] => Some (0, s)
  end.
(** SFile_SDT.load.cpp:74. *)
Definition parse_double (s : str) : option (Q * str) :=
  let '(neg, s1) := take_sign (skip_spaces s) in
  let '(m1, any1, s2) := take_digits 0 false s1 in
  let '(m2, any2, k, s3) :=
    match s2 with
    | c :: r => if Ascii.eqb c "."%char then
                  let '(m, any, r') := take_digits m1 any1 r in
                  (m, any, Z.of_nat (length r) - Z.of_nat (length r'), r')
                else (m1, any1, 0, s2)
    | [] => (m1, any1, 0, s2)
    end in
  if any2 then
    match parse_exponent s3 with
    | Some (e, s4) => Some (dec_value neg m2 (e - k), s4)
    | None => None
    end
  else None.
(** SFile_SDT.load.cpp:74. *)
Definition get_double (rnd : Q -> option Q) (s : str) : option (Q * str) :=
  match parse_double s with
  | Some (q, r) => match rnd q with Some v => Some (v, r) | None => None end
  | None => None
  end.

(** SFile_SDT.h:12-20. *)
Record matrix : Type := Matrix { m_nrows : Z; m_ncols : Z; m_rows : list (list Q) }.
(** The maps [matrices] and [strings] (SFile_SDT.h:22-29). *)
Record store : Type := Store { st_mats : list (str * matrix); st_strs : list (str * str) }.
(** SFile_SDT.cpp:82-83, 131, 209, 270, 291, 306. *)
Fixpoint find {A} (k : str) (l : list (str * A)) : option A :=
  match l with
  | (k', v) :: r => if str_eqb k k' then Some v else find k r
  | [] => None
  end.
(** std::map::emplace: does nothing when the key exists (SFile_SDT.load.cpp:86, 111). *)
Definition emplace {A} (k : str) (v : A) (l : list (str * A)) : list (str * A) :=
  match find k l with Some _ => l | None => l ++ [(k, v)] end.

(** SFile_SDT.load.cpp:73-76: one row of the matrix; [idx] is the position in the
    allocation of [alloc] elements that the next element is stored to. *)
Fixpoint load_row (rnd : Q -> option Q) (alloc idx : Z) (n : nat) (s : str) : outcome (list Q) :=
  match n with
  | O => Ok []
  | S k => if alloc <=? idx then UB else
           match get_double rnd s with
           | None => Throw
           | Some (v, r) => obind (load_row rnd alloc (idx + 1) k r) (fun l => Ok (v :: l))
           end
  end.
(** Lines 65-77: when there are no more lines, getline leaves the line empty
    (SFile_SDT.load.cpp:65-77). *)
Fixpoint load_rows (rnd : Q -> option Q) (alloc idx : Z) (n ncols : nat) (ls : list str)
  : outcome (list (list Q) * list str) :=
  match n with
  | O => Ok ([], ls)
  | S k => let '(l, r) := match ls with l :: r => (l, r) | [] => ([], []) end in
           obind (load_row rnd alloc idx ncols l) (fun row =>
           obind (load_rows rnd alloc (idx + Z.of_nat ncols) k ncols r) (fun p =>
           Ok (row :: fst p, snd p)))
  end.
(** Lines 61-87 [LoadMatrix].  [mem]: largest number of elements a new-expression can
    allocate (std::bad_alloc otherwise).  The product of the dimensions is computed
    modulo 2^64; [vals[0]] of an empty row table is outside the allocation
    (SFile_SDT.load.cpp:61-87). *)
Definition load_matrix (rnd : Q -> option Q) (mem : Z) (nrows ncols : Z) (ls : list str)
  : outcome (matrix * list str) :=
  let alloc := (nrows * ncols) mod 2 ^ 64 in
  if mem <? nrows then Throw
  else if mem <? alloc then Throw
  else if nrows =? 0 then UB
  else obind (load_rows rnd alloc 0 (Z.to_nat nrows) (Z.to_nat ncols) ls) (fun p =>
       Ok (Matrix nrows ncols (fst p), snd p)).

(** Lines 97-112 [LoadString]; [(char)c] keeps the value modulo 256 (SFile_SDT.load.cpp:97-112). *)
Definition char_of_code (z : Z) : ascii := ascii_of_nat (Z.to_nat (z mod 256)).
(** SFile_SDT.load.cpp:97-112. *)
Fixpoint load_chars (fuel : nat) (s : str) : str :=
  match fuel with
  | O => []
  | S f => match get_i32 s with
           | Some (z, r) => char_of_code z :: load_chars f r
           | None => []
           end
  end.
(** SFile_SDT.load.cpp:97-112. *)
Definition load_string (ls : list str) : str * list str :=
  let '(l, r) := match ls with l :: r => (l, r) | [] => ([], []) end in
  (load_chars (length l) l, r).

(** Lines 16-51 [Load].  [type] keeps its value when the line holds no word
    (SFile_SDT.load.cpp:16-51). *)
Fixpoint load_loop (rnd : Q -> option Q) (mem : Z) (fuel : nat) (type : str) (ls : list str) (st : store)
  : option (outcome store) :=
  match fuel with
  | O => None
  | S f =>
    match ls with
    | [] => Some (Ok st)
    | [] :: ls' => load_loop rnd mem f type ls' st
    | line :: ls' =>
        let '(type', s) := match get_word line with Some (w, r) => (w, r) | None => (type, []) end in
        if str_eqb type' (str_of "@matrix") then
          match get_word s with
          | None => Some Throw
          | Some (name, s1) =>
            match get_u64 s1 with
            | None => Some Throw
            | Some (rows, s2) =>
              match get_u64 s2 with
              | None => Some Throw
              | Some (cols, _) =>
                match load_matrix rnd mem rows cols ls' with
                | Ok (m, ls'') => load_loop rnd mem f type' ls'' (Store (emplace name m (st_mats st)) (st_strs st))
                | Throw => Some Throw
                | UB => Some UB
                end
              end
            end
          end
        else if str_eqb type' (str_of "@string") then
          match get_word s with
          | None => Some Throw
          | Some (name, s1) =>
            match get_u64 s1 with
            | None => Some Throw
            | Some (_, _) =>
                let '(v, ls'') := load_string ls' in
                load_loop rnd mem f type' ls'' (Store (st_mats st) (emplace name v (st_strs st)))
            end
          end
        else Some Throw
    end
  end.
(** The fuel is always enough (lemma [load_fuel_enough]) (SFile_SDT.load.cpp:16-51). *)
Definition load (rnd : Q -> option Q) (mem : Z) (text : str) : option (outcome store) :=
  load_loop rnd mem (S (length (lines_of text))) [] (lines_of text) (Store [] []).

(** * Read calls (SFile_SDT.cpp and SFile.cpp)

    The reader hands out its own storage.  Of every matrix we track whether the row
    table and the element block are still allocated. *)
Record cell : Type := Cell { c_mat : matrix; c_table : bool; c_block : bool }.
Record reader : Type := Reader { r_mats : list (str * cell); r_strs : list (str * str) }.
(** SFile_SDT.cpp:48-55: a freshly opened file. *)
Definition open_store (st : store) : reader :=
  Reader (map (fun p => (fst p, Cell (snd p) true true)) (st_mats st)) (st_strs st).
Fixpoint update {A} (k : str) (f : A -> A) (l : list (str * A)) : list (str * A) :=
  match l with
  | (k', v) :: r => if str_eqb k k' then (k', f v) :: r else (k', v) :: update k f r
  | [] => []
  end.

(** Element types of the integer readers (SFile_SDT.cpp:175-186). *)
Inductive ityp : Type := I32 | I64 | U32 | U64.
(** SFile_SDT.cpp:175-186. *)
Definition ityp_lo (t : ityp) : Z := match t with I32 => - 2 ^ 31 | I64 => - 2 ^ 63 | _ => 0 end.
(** SFile_SDT.cpp:175-186. *)
Definition ityp_hi (t : ityp) : Z :=
  match t with I32 => 2 ^ 31 - 1 | I64 => 2 ^ 63 - 1 | U32 => 2 ^ 32 - 1 | U64 => 2 ^ 64 - 1 end.
(** [(T)double]: truncation, undefined when the result does not fit (SFile_SDT.cpp:168, 242). *)
Definition cast_int (t : ityp) (q : Q) : outcome Z :=
  let z := Z.quot (Qnum q) (Zpos (Qden q)) in
  if ((ityp_lo t <=? z) && (z <=? ityp_hi t))%bool then Ok z else UB.

(** SFile_SDT.cpp:81-312, SFile.cpp:150-166, 299-317. *)
Inductive rcall : Type :=
| RHas (name : str)                   (* SFile_SDT.cpp:81-86 *)
| RString (name : str)                (* 305-312 *)
| RDoubles (name : str)               (* 130-145, the caller looks at the elements *)
| RList (name : str)                  (* SFile.cpp:150-166 *)
| RScalar (name : str)                (* SFile.cpp:299-313 *)
| RInts (t : ityp) (name : str)       (* SFile_SDT.cpp:155-187 *)
| RInt (t : ityp) (name : str)        (* SFile.cpp:314-317 *)
| RVec (name : str)                   (* 208-226 *)
| RIntVec (t : ityp) (name : str)     (* 236-259 *)
| RAttr (dset name : str)             (* 267-279 *)
| RAttrString (dset name : str).      (* 288-297 *)

(** SFile_SDT.cpp:81-312, SFile.cpp:150-166, 299-317. *)
Inductive rvalue : Type :=
| VBool (b : bool) | VStr (s : str) | VMat (nrows ncols : Z) (rows : list (list Q))
| VVec (l : list Q) | VNum (q : Q) | VIMat (nrows ncols : Z) (rows : list (list Z))
| VIVec (l : list Z) | VInt (z : Z).

(** Elements [value[0][0]], [value[0][1]], ...: the rows are contiguous (SFile_SDT.cpp:221-223). *)
Definition elements (m : matrix) : list Q := concat (m_rows m).

(** SFile_SDT.cpp:170-171, SFile.cpp:299-313. *)
Definition kill_both (c : cell) : cell := Cell (c_mat c) false false.
(** SFile.cpp:150-166. *)
Definition kill_table (c : cell) : cell := Cell (c_mat c) false (c_block c).
(** SFile_SDT.cpp:170-171. *)
Definition set_mats (r : reader) (l : list (str * cell)) : reader := Reader l (r_strs r).

(** Use of [it->second.value[i][j]] (SFile_SDT.cpp:144, 223, 278). *)
Definition readable (c : cell) : bool := (c_table c && c_block c)%bool.

(** SFile_SDT.cpp:208-226 [GetDoubles1D]. *)
Definition doubles_1d (c : cell) : outcome (list Q) :=
  let m := c_mat c in
  let go (n : Z) :=
    if n =? 0 then Ok [] else
    if readable c then
      if Z.of_nat (length (elements m)) <? n then UB else Ok (firstn (Z.to_nat n) (elements m))
    else UB in
  if m_nrows m =? 1 then go (m_ncols m)
  else if negb (m_ncols m =? 1) then go (m_nrows m)
  else Throw.

(** SFile_SDT.cpp:130-145 [GetDoubles] looks the matrix up and returns the internal
    pointer; [narr] is allocated and leaked (a stored matrix has at least one row, so
    [narr[0]] exists). *)
Definition with_matrix (r : reader) (name : str) (f : cell -> outcome rvalue * reader) : outcome rvalue * reader :=
  match find name (r_mats r) with
  | None => (Throw, r)
  | Some c => f c
  end.
(** [delete [] l[0]; delete [] l] on the internal storage
    (SFile_SDT.cpp:170-171, SFile.cpp:299-313). *)
Definition freed (r : reader) (name : str) : reader := set_mats r (update name kill_both (r_mats r)).
(** SFile_SDT.cpp:275, SFile.cpp:299-313. *)
Definition not_scalar (m : matrix) : bool := (negb (m_nrows m =? 1) || negb (m_ncols m =? 1))%bool.

(** Result of a call (value, exception or undefined behaviour) and the reader afterwards
    (SFile_SDT.cpp:81-312, SFile.cpp:150-166, 299-317). *)
Definition do_read (r : reader) (c : rcall) : outcome rvalue * reader :=
  match c with
  | RHas n =>
      (Ok (VBool (match find n (r_mats r), find n (r_strs r) with None, None => false | _, _ => true end)), r)
  | RString n => (match find n (r_strs r) with None => Throw | Some s => Ok (VStr s) end, r)
  | RDoubles n => with_matrix r n (fun c => let m := c_mat c in
      if readable c then (Ok (VMat (m_nrows m) (m_ncols m) (m_rows m)), r) else (UB, r))
  | RList n => with_matrix r n (fun c => let m := c_mat c in
      if ((m_nrows m =? 1) || (m_ncols m =? 1))%bool then
        if readable c then (Ok (VVec (elements m)), set_mats r (update n kill_table (r_mats r))) else (UB, r)
      else (Throw, r))
  | RScalar n => with_matrix r n (fun c => let m := c_mat c in
      if not_scalar m then (Throw, r)
      else if readable c then
        match elements m with
        | q :: _ => (Ok (VNum q), freed r n)
        | [] => (UB, r)
        end
      else (UB, r))
  | RInts t n => with_matrix r n (fun c => let m := c_mat c in
      if readable c then
        (obind (obind_list (obind_list (cast_int t)) (m_rows m)) (fun rows =>
           Ok (VIMat (m_nrows m) (m_ncols m) rows)), freed r n)
      else (UB, r))
  | RInt t n => with_matrix r n (fun c => let m := c_mat c in
      if readable c then
        (obind (obind_list (obind_list (cast_int t)) (m_rows m)) (fun rows =>
           (* the storage is already freed when the shape is found to be wrong *)
           if not_scalar m then Throw
           else match concat rows with z :: _ => Ok (VInt z) | [] => UB end), freed r n)
      else (UB, r))
  | RVec n => with_matrix r n (fun c => (obind (doubles_1d c) (fun l => Ok (VVec l)), r))
  | RIntVec t n => with_matrix r n (fun c => (obind (doubles_1d c) (fun l =>
      obind (obind_list (cast_int t) l) (fun zs => Ok (VIVec zs))), r))
  | RAttr d n => with_matrix r (attr_name d n) (fun c => let m := c_mat c in
      if not_scalar m then (Throw, r)
      else if readable c then (match elements m with q :: _ => Ok (VNum q) | [] => UB end, r)
      else (UB, r))
  | RAttrString d n =>
      (match find (attr_name d n) (r_strs r) with None => Throw | Some s => Ok (VStr s) end, r)
  end.

(** A sequence of read calls: the results up to and including the first undefined one
    (SFile_SDT.cpp:81-312). *)
Fixpoint do_reads (r : reader) (cs : list rcall) : list (outcome rvalue) :=
  match cs with
  | [] => []
  | c :: cs' => match do_read r c with
                | (UB, _) => [UB]
                | (o, r') => o :: do_reads r' cs'
                end
  end.
