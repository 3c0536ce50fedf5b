(** Properties C15 to C25, C66 to C68 and C110: data files.
    Only statements, references to the proofs, assumptions and examples.

    [rnd] is the rounding of a decimal number to a double when text is read (None: out
    of range); [mem] is the largest number of elements that can be allocated. *)
From Verif Require Import Base SettingsModel SettingsProofs SdtModel NumText DoubleText SdtSpec SdtProofs SdtReadProofs
  SdtUseProofs SdtTextSpec SdtTextProofs SFileModel SFileProofs.
From Coq Require Import ZArith QArith Qabs.
Local Open Scope Z_scope.

(** For the examples: exact numbers, memory for a thousand elements. *)
Definition exact : Q -> option Q := fun q => Some q.
Definition ex_mem : Z := 1000.
Definition s (x : string) : str := str_of x.
(** The reader of an opened text, when opening succeeds. *)
Definition opened (text : str) : reader :=
  match load exact ex_mem text with Some (Ok st) => open_store st | _ => Reader [] [] end.
Ltac ex_plain := split; [discriminate|];
  let c := fresh in let H := fresh in let W := fresh in
  intros c H W; cbn [In str_of s app] in H;
  repeat (destruct H as [H|H]; [subst c; apply is_space_iff in W; vm_compute in W; discriminate|]); destruct H.

(* ------------------------------------------------------------------ *)
(** C15.  A string written under a name without white space is read back unchanged,
    whatever its bytes and whatever else the file holds. *)
Theorem C15_string_round_trip : forall rnd mem pre post n v, mem < 2 ^ 64 ->
  (forall c, In c (pre ++ post) -> ok_call rnd mem c) ->
  (forall c x, In c pre -> defines c <> Some (n, DStr x)) -> plain n -> Z.of_nat (length v) <= mem ->
  exists r, opens rnd mem (write_file (pre ++ WString n v :: post)) r /\ result r (RString n) = Ok (VStr v).
Proof. exact string_read. Qed.
Print Assumptions C15_string_round_trip.
Definition odd_bytes : str := [cNL; cSP; ascii_of_nat 255; cNUL; "@"%char; ascii_of_nat 128].
Example C15_example : result (opened (write_file [WScalar (s "k") (NInt 3); WString (s "v") odd_bytes])) (RString (s "v"))
  = Ok (VStr odd_bytes).
Proof. vm_compute. reflexivity. Qed.
Example C15_nonvacuous : plain (s "v") /\ (forall c, In c ([WScalar (s "k") (NInt 3)] ++ []) -> ok_call exact ex_mem c).
Proof.
  split; [ex_plain|]. intros c [H|[]]. subst c. split; [ex_plain|]. unfold ok_matrix. cbn [length].
  split; [discriminate|]. split; [intros x [Hx|[]]; subst x; reflexivity|].
  split; [intros x y [Hx|[]] Hy; subst x; destruct Hy as [Hy|[]]; subst y; discriminate|unfold ex_mem; lia].
Qed.

(* ------------------------------------------------------------------ *)
(** C16.  An integer matrix is read back with the same dimensions and elements, as
    doubles and (when the elements fit) as integers. *)
Theorem C16_integer_matrix_round_trip : forall rnd mem pre post n nc zs, mem < 2 ^ 64 -> exact_ints rnd ->
  (forall c, In c (pre ++ post) -> ok_call rnd mem c) -> (forall c a b, In c pre -> defines c <> Some (n, DMat a b)) ->
  plain n -> zs <> [] -> (forall row, In row zs -> length row = nc) ->
  (forall row z, In row zs -> In z row -> Z.abs z <= 2 ^ 53) ->
  Z.of_nat (length zs) <= mem -> Z.of_nat nc <= mem -> Z.of_nat (length zs) * Z.of_nat nc <= mem ->
  exists r, opens rnd mem (write_file (pre ++ WArray n nc (map (map NInt) zs) :: post)) r /\
    result r (RDoubles n) = Ok (VMat (Z.of_nat (length zs)) (Z.of_nat nc) (map (map inject_Z) zs)) /\
    forall t, (forall row z, In row zs -> In z row -> fits t z) ->
      result r (RInts t n) = Ok (VIMat (Z.of_nat (length zs)) (Z.of_nat nc) zs).
Proof. exact int_matrix. Qed.
Print Assumptions C16_integer_matrix_round_trip.
(** Whatever the numbers: the integer readers drop the fractions, and are undefined as
    soon as one integer part is outside the type. *)
Theorem C16_integer_reads : forall r n nr nc rows, result r (RDoubles n) = Ok (VMat nr nc rows) ->
  exists zs, Forall2 (Forall2 integer_part) rows zs /\ forall t,
    ((forall row z, In row zs -> In z row -> fits t z) -> result r (RInts t n) = Ok (VIMat nr nc zs) /\
       (nr <> 1 \/ nc <> 1 -> result r (RInt t n) = Throw) /\ (forall z, nr = 1 -> nc = 1 -> zs = [[z]] -> result r (RInt t n) = Ok (VInt z))) /\
    (forall row z, In row zs -> In z row -> ~ fits t z -> result r (RInts t n) = UB /\ result r (RInt t n) = UB).
Proof. exact integer_reads. Qed.
Print Assumptions C16_integer_reads.
Example C16_example : result (opened (write_file [WArray (s "m") 2 (map (map NInt) [[1; -2]; [9007199254740992; 0]; [5; 6]])]))
  (RInts I64 (s "m")) = Ok (VIMat 3 2 [[1; -2]; [9007199254740992; 0]; [5; 6]]).
Proof. vm_compute. reflexivity. Qed.
Example C16_reads_example : let r := opened (write_file [WArray (s "m") 2 [[NDbl (-7 # 2); NInt 4294967295]]]) in
  result r (RInts I64 (s "m")) = Ok (VIMat 1 2 [[-3; 4294967295]]) /\ result r (RInts U32 (s "m")) = UB /\
  result r (RIntVec I32 (s "m")) = UB /\ integer_part (-7 # 2) (-3).
Proof.
  cbv zeta. split; [vm_compute; reflexivity|]. split; [vm_compute; reflexivity|]. split; [vm_compute; reflexivity|].
  split; intro H; [exfalso; apply H; reflexivity|]. split; [reflexivity|discriminate].
Qed.
Example C16_nonvacuous : exact_ints exact /\ plain (s "m") /\ fits I64 9007199254740992 /\ ~ fits I32 9007199254740992.
Proof. split; [intros z H; reflexivity|]. split; [ex_plain|]. unfold fits. lia. Qed.

(* ------------------------------------------------------------------ *)
(** C17.  After any sequence of writes: exactly the written names exist, strings and
    matrices have the value of their first definition, other reads throw. *)
Theorem C17_written_variables : forall rnd mem cs, mem < 2 ^ 64 -> (forall c, In c cs -> ok_call rnd mem c) ->
  exists r, opens rnd mem (write_file cs) r /\ forall n,
    (exists b, result r (RHas n) = Ok (VBool b) /\ (b = true <-> exists c d, In c cs /\ defines c = Some (n, d))) /\
    (forall x, first_string n cs = Some x -> result r (RString n) = Ok (VStr x)) /\
    (first_string n cs = None -> result r (RString n) = Throw) /\
    (forall nc rows, first_matrix n cs = Some (nc, rows) -> exists vals,
        result r (RDoubles n) = Ok (VMat (Z.of_nat (length rows)) (Z.of_nat nc) vals) /\ read_matrix rnd rows vals) /\
    (first_matrix n cs = None -> result r (RDoubles n) = Throw).
Proof. exact written_file. Qed.
Print Assumptions C17_written_variables.
Definition ex_calls : list wcall :=
  [WArray (s "m") 2 [[NInt 1; NInt 2]; [NInt 3; NDbl (1 # 2)]]; WString (s "t") (s "a b"); WStruct (s "st");
   WList (s "l") [NInt 7; NInt 8; NInt 9]; WArray (s "m") 1 [[NInt 5]]; WString (s "m") (s "both")].
Example C17_example : let r := opened (write_file ex_calls) in
  result r (RDoubles (s "m")) = Ok (VMat 2 2 [[1; 2]; [3; 5 # 10]]%Q) /\ result r (RString (s "m")) = Ok (VStr (s "both")) /\
  result r (RList (s "l")) = Ok (VVec [7; 8; 9]%Q) /\ result r (RHas (s "st")) = Ok (VBool false).
Proof. vm_compute. repeat split; reflexivity. Qed.

(* ------------------------------------------------------------------ *)
(** C18.  A call returns what it would return on a freshly opened file as long as no
    earlier call was a list, scalar or integer read of the variable it looks at ... *)
Theorem C18_reads_repeatable : forall r cs c,
  (forall k c', looks_at c = Some k -> In c' cs -> destroys c' <> Some k) -> result (after r cs) c = result r c.
Proof. exact undisturbed. Qed.
Print Assumptions C18_reads_repeatable.
(** ... but after a successful list, scalar or integer read the same read and any
    matrix read of the variable have undefined behaviour, whatever happens in between. *)
Theorem C18_second_read_refuted : forall r c n v cs, destroys c = Some n -> result r c = Ok v ->
  let r' := after (snd (do_read r c)) cs in
  result r' c = UB /\ result r' (RDoubles n) = UB /\ (forall t, result r' (RInts t n) = UB).
Proof. exact read_again_ub. Qed.
Print Assumptions C18_second_read_refuted.
Example C18_example : let r := opened (write_file ex_calls) in
  do_reads r [RDoubles (s "m"); RVec (s "l"); RDoubles (s "m"); RList (s "l"); RDoubles (s "m"); RList (s "l")] =
  [Ok (VMat 2 2 [[1; 2]; [3; 5 # 10]]%Q); Ok (VVec [7; 8; 9]%Q); Ok (VMat 2 2 [[1; 2]; [3; 5 # 10]]%Q);
   Ok (VVec [7; 8; 9]%Q); Ok (VMat 2 2 [[1; 2]; [3; 5 # 10]]%Q); UB].
Proof. vm_compute. reflexivity. Qed.

(* ------------------------------------------------------------------ *)
(** C19.  What GetDoubles1D returns for every shape of variable in an opened file. *)
Theorem C19_one_dimensional_reads : forall rnd mem text r n nr nc rows,
  opens rnd mem text r -> result r (RDoubles n) = Ok (VMat nr nc rows) ->
  (nr = 1 -> result r (RVec n) = Ok (VVec (concat rows))) /\
  (nr <> 1 -> nc = 1 -> result r (RVec n) = Throw) /\
  (nr <> 1 -> 2 <= nc -> result r (RVec n) = Ok (VVec (firstn (Z.to_nat nr) (concat rows)))) /\
  (nr <> 1 -> nc = 0 -> result r (RVec n) = UB).
Proof. exact vec_read. Qed.
Print Assumptions C19_one_dimensional_reads.
(** The integer versions return the same elements as integers (when they fit), and throw or
    are undefined exactly like the reads of doubles. *)
Theorem C19_integer_vectors : forall r t n,
  (forall zs, result r (RVec n) = Ok (VVec (map inject_Z zs)) -> (forall z, In z zs -> fits t z) -> result r (RIntVec t n) = Ok (VIVec zs)) /\
  (result r (RVec n) = Throw -> result r (RIntVec t n) = Throw) /\ (result r (RVec n) = UB -> result r (RIntVec t n) = UB).
Proof. exact int_vec_read. Qed.
Print Assumptions C19_integer_vectors.
Theorem C19_integer_parts : forall r n vs, result r (RVec n) = Ok (VVec vs) ->
  exists zs, Forall2 integer_part vs zs /\ forall t,
    ((forall z, In z zs -> fits t z) -> result r (RIntVec t n) = Ok (VIVec zs)) /\
    (forall z, In z zs -> ~ fits t z -> result r (RIntVec t n) = UB).
Proof. exact integer_vectors. Qed.
Print Assumptions C19_integer_parts.
(** So it is not true that exactly the 1-by-n and n-by-1 variables are accepted. *)
Theorem C19_column_vectors_refuted : ~ (forall rnd mem text r n nr rows,
  opens rnd mem text r -> result r (RDoubles n) = Ok (VMat nr 1 rows) -> result r (RVec n) = Ok (VVec (concat rows))).
Proof.
  intro H. specialize (H exact ex_mem (write_file [WArray (s "c") 1 [[NInt 1]; [NInt 2]]])
    (opened (write_file [WArray (s "c") 1 [[NInt 1]; [NInt 2]]])) (s "c") 2 [[1]; [2]]%Q).
  vm_compute in H. assert (X := H (ex_intro _ _ (conj eq_refl eq_refl)) eq_refl). discriminate.
Qed.
Print Assumptions C19_column_vectors_refuted.
Example C19_example : let r := opened (write_file (WArray (s "c") 1 [[NInt 1]; [NInt 2]] :: ex_calls)) in
  result r (RVec (s "l")) = Ok (VVec [7; 8; 9]%Q) /\ result r (RVec (s "m")) = Ok (VVec [1; 2]%Q) /\ result r (RVec (s "c")) = Throw.
Proof. vm_compute. repeat split; reflexivity. Qed.

(* ------------------------------------------------------------------ *)
(** C20.  The type depends only on the characters after the last '.'. *)
Theorem C20_file_type : forall a e, ~ In "."%char e ->
  type_of_file (a ++ "."%char :: e) =
    (if (str_eqb e (s "h5") || str_eqb e (s "hdf5"))%bool then FHdf5
     else if str_eqb e (s "mat") then FMatlab
     else if (str_eqb e (s "sdt") || str_eqb e (s "out"))%bool then FSdt else FUnknown) /\
  type_of_file e = FUnknown.
Proof. exact type_of_name. Qed.
Print Assumptions C20_file_type.
(** Opening a file for an unknown extension throws; HDF5 files need HDF5 support. *)
Theorem C20_create : forall hdf5 name,
  (type_of_file name = FUnknown -> create hdf5 name = Throw) /\
  (type_of_file name = FHdf5 -> create hdf5 name = if hdf5 then Ok FHdf5 else Throw) /\
  (type_of_file name <> FUnknown -> type_of_file name <> FHdf5 -> create hdf5 name = Ok (type_of_file name)).
Proof. exact create_name. Qed.
Print Assumptions C20_create.
Example C20_example : type_of_file (s "/a.b/c.tar.mat") = FMatlab /\ type_of_file (s "x.out") = FSdt /\
  type_of_file (s "x.h5 ") = FUnknown /\ type_of_file (s "./h5") = FUnknown /\ type_of_file (s "h5") = FUnknown.
Proof. vm_compute. repeat split; reflexivity. Qed.

(* ------------------------------------------------------------------ *)
(** C21.  List and scalar reads of an opened SDT file. *)
Theorem C21_list_and_scalar : forall rnd mem text r n nr nc rows,
  opens rnd mem text r -> result r (RDoubles n) = Ok (VMat nr nc rows) ->
  (nr = 1 \/ nc = 1 -> result r (RList n) = Ok (VVec (concat rows))) /\
  (nr <> 1 -> nc <> 1 -> result r (RList n) = Throw) /\
  (nr = 1 -> nc = 1 -> exists q, rows = [[q]] /\ result r (RScalar n) = Ok (VNum q) /\
     exists z, integer_part q z /\ forall t, (fits t z -> result r (RInt t n) = Ok (VInt z)) /\ (~ fits t z -> result r (RInt t n) = UB)) /\
  (nr <> 1 \/ nc <> 1 -> result r (RScalar n) = Throw).
Proof. exact list_read_int. Qed.
Print Assumptions C21_list_and_scalar.
(** The same calls on HDF5 and MAT files. *)
Theorem C21_list_and_scalar_hdf5 : forall f n d, find n f = Some d -> d_type d <> HString ->
  (forall k, d_dims d = [k] -> get_list (h5_get2d f n) = Ok (d_data d) /\
     (k <> 1 -> get_scalar (h5_get2d f n) = Throw) /\
     (forall q, k = 1 -> d_data d = [q] -> get_scalar (h5_get2d f n) = Ok q)) /\
  (forall a b, d_dims d = [a; b] -> 0 <= a -> 0 <= b -> Z.of_nat (length (d_data d)) = a * b ->
     (a = 1 \/ (b = 1 /\ a <> 0) -> get_list (h5_get2d f n) = Ok (d_data d)) /\
     (a = 0 -> b = 1 -> get_list (h5_get2d f n) = UB) /\
     (a <> 1 -> b <> 1 -> get_list (h5_get2d f n) = Throw) /\
     (a <> 1 \/ b <> 1 -> get_scalar (h5_get2d f n) = Throw) /\
     (forall q, a = 1 -> b = 1 -> d_data d = [q] -> get_scalar (h5_get2d f n) = Ok q)).
Proof. exact h5_list_scalar. Qed.
Print Assumptions C21_list_and_scalar_hdf5.
Example C21_example : let r := opened (write_file (WArray (s "c") 1 [[NInt 1]; [NInt 2]] :: WScalar (s "x") (NInt (-4)) :: ex_calls)) in
  result r (RList (s "c")) = Ok (VVec [1; 2]%Q) /\ result r (RList (s "m")) = Throw /\ result r (RScalar (s "x")) = Ok (VNum (-4 # 1)) /\
  result r (RInt I32 (s "x")) = Ok (VInt (-4)) /\ result r (RScalar (s "l")) = Throw.
Proof. vm_compute. repeat split; reflexivity. Qed.
Example C21_example_hdf5 : let f := [(s "c", Dataset HDouble [2; 1] [1; 2]%Q); (s "x", Dataset HDouble [1] [5]%Q)] in
  get_list (h5_get2d f (s "c")) = Ok [1; 2]%Q /\ get_scalar (h5_get2d f (s "x")) = Ok 5%Q /\ get_scalar (h5_get2d f (s "c")) = Throw.
Proof. vm_compute. repeat split; reflexivity. Qed.

(* ------------------------------------------------------------------ *)
(** C22.  An attribute is read back for its data set and name, unless something of the
    joined name was written before. *)
Theorem C22_scalar_attribute : forall rnd mem pre post d n v, mem < 2 ^ 64 -> 1 <= mem ->
  (forall c, In c (pre ++ post) -> ok_call rnd mem c) ->
  (forall c a b, In c pre -> defines c <> Some (d ++ str_of "_" ++ n, DMat a b)) ->
  plain (d ++ str_of "_" ++ n) -> in_range rnd (NDbl v) ->
  exists r q, opens rnd mem (write_file (pre ++ WAttrScalar d n v :: post)) r /\
    result r (RAttr d n) = Ok (VNum q) /\ reads_back rnd (NDbl v) q.
Proof. exact attr_read. Qed.
Print Assumptions C22_scalar_attribute.
Theorem C22_string_attribute : forall rnd mem pre post d n v, mem < 2 ^ 64 ->
  (forall c, In c (pre ++ post) -> ok_call rnd mem c) ->
  (forall c x, In c pre -> defines c <> Some (d ++ str_of "_" ++ n, DStr x)) ->
  plain (d ++ str_of "_" ++ n) -> Z.of_nat (length v) <= mem ->
  exists r, opens rnd mem (write_file (pre ++ WAttrString d n v :: post)) r /\ result r (RAttrString d n) = Ok (VStr v).
Proof. exact attr_string_read. Qed.
Print Assumptions C22_string_attribute.
(** Scalar attributes in MAT files. *)
Theorem C22_mat_attribute : forall f f' d n v, mat_write_attr f d n v = Ok f' -> mat_get_attr f' d n = Ok v /\
  forall d' n', attr_name d' n' <> attr_name d n -> mat_get_attr f' d' n' = mat_get_attr f d' n'.
Proof. exact mat_attributes. Qed.
Print Assumptions C22_mat_attribute.
(** Attributes of data sets whose names have no '_' do not collide with each other ... *)
Theorem C22_no_collision : forall d1 d2 n1 n2 : str, ~ In "_"%char d1 -> ~ In "_"%char d2 ->
  d1 ++ str_of "_" ++ n1 = d2 ++ str_of "_" ++ n2 -> d1 = d2 /\ n1 = n2.
Proof. exact join_inj. Qed.
Print Assumptions C22_no_collision.
(** ... others may: the attribute read is the one of another data set. *)
Theorem C22_distinct_attributes_refuted : exists d1 n1 d2 n2 v1 v2, (d1, n1) <> (d2, n2) /\ ~ (v1 == v2)%Q /\
  result (opened (write_file [WAttrScalar d1 n1 v1; WAttrScalar d2 n2 v2])) (RAttr d2 n2) = Ok (VNum v1).
Proof.
  exists (s "a_b"), (s "c"), (s "a"), (s "b_c"), 1%Q, 2%Q. split; [discriminate|]. split; [discriminate|]. vm_compute. reflexivity.
Qed.
Print Assumptions C22_distinct_attributes_refuted.
Example C22_example : let r := opened (write_file [WAttrScalar (s "d") (s "t") (3 # 2); WAttrString (s "d") (s "u") (s "x y"); WAttrScalar (s "e") (s "t") 4]) in
  result r (RAttr (s "d") (s "t")) = Ok (VNum (15 # 10)) /\ result r (RAttrString (s "d") (s "u")) = Ok (VStr (s "x y")) /\
  result r (RAttr (s "e") (s "t")) = Ok (VNum 4) /\ result r (RAttr (s "e") (s "u")) = Throw.
Proof. vm_compute. repeat split; reflexivity. Qed.
Example C22_nonvacuous : plain (s "d" ++ str_of "_" ++ s "t") /\ in_range exact (NDbl (3 # 2)).
Proof. split; [ex_plain|]. intros q _. discriminate. Qed.

(* ------------------------------------------------------------------ *)
(** C23.  Loading any text ends, and is undefined only if some line declares a matrix
    without rows or with 2^64 or more elements; every matrix loaded has the announced shape. *)
Theorem C23_loader_safe : forall rnd mem text,
  load rnd mem text <> None /\
  (load rnd mem text = Some UB -> exists lines line name a b, lines_are text lines /\ In line lines /\ declares line name a b /\ (a = 0 \/ 2 ^ 64 <= a * b)) /\
  (forall r n nr nc rows, opens rnd mem text r -> result r (RDoubles n) = Ok (VMat nr nc rows) ->
     1 <= nr /\ 0 <= nc /\ Z.of_nat (length rows) = nr /\ forall x, In x rows -> Z.of_nat (length x) = nc).
Proof. exact text_safe. Qed.
Print Assumptions C23_loader_safe.
(** A line declaring a matrix without rows, behind any number of good definitions, is
    undefined behaviour. *)
Theorem C23_zero_rows_refuted : forall rnd mem, (forall p q, (p == q)%Q -> rnd p = rnd q) -> mem < 2 ^ 64 ->
  forall text lines ds line rest name b, 0 <= mem -> lines_are text lines -> sdt_lines rnd mem lines ds (line :: rest) ->
  declares line name 0 b -> load rnd mem text = Some UB.
Proof. exact text_no_rows. Qed.
Print Assumptions C23_zero_rows_refuted.
(** So is one whose number of elements is a multiple of 2^64. *)
Theorem C23_overflow_refuted : forall rnd mem, (forall p q, (p == q)%Q -> rnd p = rnd q) -> mem < 2 ^ 64 ->
  forall text lines ds line rest name a b, 1 <= a <= mem -> 1 <= b -> lines_are text lines -> sdt_lines rnd mem lines ds (line :: rest) ->
  declares line name a b -> (2 ^ 64 | a * b) -> load rnd mem text = Some UB.
Proof. exact text_overflow. Qed.
Print Assumptions C23_overflow_refuted.
Example C23_example : load exact ex_mem (s "@matrix q 0 3") = Some UB /\ load exact ex_mem (s "@matrix q 2 x") = Some Throw /\
  load exact ex_mem (s "rubbish") = Some Throw /\ load exact ex_mem [] = Some (Ok (Store [] [])).
Proof. vm_compute. repeat split; reflexivity. Qed.
Example C23_nonvacuous : declares (s "@matrix q 0 3") (s "q") 0 3 /\ lines_are (s "@matrix q 0 3") [s "@matrix q 0 3"].
Proof.
  split; [|exact (lines_of_are (s "@matrix q 0 3"))]. apply declares_iff.
  exists (s " q 0 3"), (s " 0 3"), (s " 3"), []. split; [vm_compute; reflexivity|]. split; [vm_compute; reflexivity|]. split; vm_compute; reflexivity.
Qed.
Example C23_nonvacuous_overflow : declares (s "@matrix a 2 9223372036854775808") (s "a") 2 9223372036854775808 /\
  (2 ^ 64 | 2 * 9223372036854775808).
Proof.
  split; [|exists 1; reflexivity]. apply declares_iff.
  exists (s " a 2 9223372036854775808"), (s " 2 9223372036854775808"), (s " 9223372036854775808"), [].
  split; [vm_compute; reflexivity|]. split; [vm_compute; reflexivity|]. split; vm_compute; reflexivity.
Qed.

(* ------------------------------------------------------------------ *)
(** C24.  Shapes in HDF5 and MAT files; nothing else in the file changes. *)
Theorem C24_list_and_array : forall t f name f', t <> HString ->
  (forall l, h5_write_list t f name l = Ok f' -> h5_get2d f' name = Ok (1, Z.of_nat (length l), [l]) /\ h5_get1d f' name = Ok l) /\
  (forall nc rows, (forall r, In r rows -> length r = nc) -> h5_write_array t f name nc rows = Ok f' ->
     h5_get2d f' name = Ok (Z.of_nat (length rows), Z.of_nat nc, rows)) /\
  (forall dims data k, (length dims <= k)%nat -> h5_write_multi t f name dims data = Ok f' -> h5_get_multi f' name k = Ok (Some (dims, data))).
Proof. exact h5_shapes. Qed.
Print Assumptions C24_list_and_array.
(** Texts are not read as numbers. *)
Theorem C24_text_as_numbers : forall f name d k, find name f = Some d -> d_type d = HString ->
  (length (d_dims d) = 1 \/ length (d_dims d) = 2)%nat -> (length (d_dims d) <= k)%nat ->
  h5_get2d f name = Throw /\ h5_get1d f name = Throw /\ h5_get_multi f name k = Throw.
Proof. exact h5_text. Qed.
Print Assumptions C24_text_as_numbers.
(** Reading a variable that the file does not hold throws; writing an array without rows is undefined. *)
Theorem C24_missing : forall f name k, h5_has f name = false ->
  h5_get2d f name = Throw /\ h5_get1d f name = Throw /\ h5_get_multi f name k = Throw.
Proof. exact h5_missing. Qed.
Print Assumptions C24_missing.
Theorem C24_no_rows_refuted : forall t f name nc, h5_write_array t f name nc [] = UB.
Proof. reflexivity. Qed.
Print Assumptions C24_no_rows_refuted.
Theorem C24_other_variables : forall t f name f' other, other <> name ->
  (forall l, h5_write_list t f name l = Ok f' -> h5_get2d f' other = h5_get2d f other) /\
  (forall nc rows, h5_write_array t f name nc rows = Ok f' -> h5_get2d f' other = h5_get2d f other).
Proof. exact h5_others. Qed.
Print Assumptions C24_other_variables.
(** A new name (outside structs, see C94_names) can be written, an existing one cannot. *)
Theorem C24_new_names : forall t f name l, ~ In "/"%char name ->
  (h5_has f name = false -> exists f', h5_write_list t f name l = Ok f' /\ h5_has f' name = true) /\
  (h5_has f name = true -> h5_write_list t f name l = Throw).
Proof. intros t f name l _. exact (h5_new_names t f name l). Qed.
Print Assumptions C24_new_names.
(** The type a variable is written with is the type reported for it; the types of the other
    variables do not change. *)
Theorem C24_types : forall t f name f',
  (exists l, h5_write_list t f name l = Ok f') \/ (exists nc rows, h5_write_array t f name nc rows = Ok f') \/
  (exists dims data, h5_write_multi t f name dims data = Ok f') ->
  (t = HDouble -> h5_type f' name = Some SDouble) /\ (t = HI32 -> h5_type f' name = Some SInt32) /\ (t = HI64 -> h5_type f' name = Some SInt64) /\
  (t = HU32 -> h5_type f' name = Some SUInt32) /\ (t = HU64 -> h5_type f' name = Some SUInt64) /\
  forall other, other <> name -> h5_type f' other = h5_type f other.
Proof. exact h5_types. Qed.
Print Assumptions C24_types.
(** MAT strings: the part before the first NUL is read back, so exactly the strings
    without NUL are unchanged. *)
Theorem C24_mat_strings : forall f f' name v, mat_write_string f name v = Ok f' ->
  (~ In cNUL v -> mat_get_string f' name = Ok v) /\
  (forall a b, v = a ++ cNUL :: b -> ~ In cNUL a -> mat_get_string f' name = Ok a).
Proof. exact mat_strings. Qed.
Print Assumptions C24_mat_strings.
Example C24_example : exists f1 f2 f3,
  h5_write_list HDouble [] (s "l") [1; 2; 3]%Q = Ok f1 /\ h5_write_array HI32 f1 (s "m") 2 [[1; 2]; [3; 4]; [5; 6]]%Q = Ok f2 /\
  mat_write_string f2 (s "t") (s "ab") = Ok f3 /\ h5_get2d f3 (s "l") = Ok (1, 3, [[1; 2; 3]%Q]) /\
  h5_get2d f3 (s "m") = Ok (3, 2, [[1; 2]; [3; 4]; [5; 6]]%Q) /\ mat_get_string f3 (s "t") = Ok (s "ab") /\
  h5_write_list HDouble f3 (s "l") [] = Throw.
Proof. do 3 eexists. split; [vm_compute; reflexivity|]. split; [vm_compute; reflexivity|]. split; [vm_compute; reflexivity|]. vm_compute. repeat split; reflexivity. Qed.

(* ------------------------------------------------------------------ *)
(** C25.  Every in-range index vector leads through the tables to its row-major
    position; different vectors lead to different positions. *)
Theorem C25_multi_tables : forall dims, (2 <= length dims)%nat -> (forall d, In d dims -> 0 < d) -> product dims < 2 ^ 64 ->
  exists ts, multi_tables dims = Ok ts /\ forall idx, in_range_idx dims idx ->
    deref ts 0 idx = Ok (row_major dims idx) /\ 0 <= row_major dims idx < product dims /\
    forall idx', in_range_idx dims idx' -> row_major dims idx = row_major dims idx' -> idx = idx'.
Proof. exact multi_tables_all. Qed.
Print Assumptions C25_multi_tables.
(** With fewer than two dimensions, or an empty later dimension, the construction is undefined. *)
Theorem C25_low_rank_refuted : forall dims, (length dims < 2)%nat \/ (exists d ds, dims = d :: ds /\ (2 <= length dims)%nat /\ In 0 ds) ->
  multi_tables dims = UB.
Proof. exact multi_tables_ub. Qed.
Print Assumptions C25_low_rank_refuted.
(** A first index outside of the first dimension is undefined. *)
Theorem C25_outside : forall d ds ts i idx, ds <> [] -> (forall x, In x (d :: ds) -> 0 < x) -> product (d :: ds) < 2 ^ 64 ->
  multi_tables (d :: ds) = Ok ts -> i < 0 \/ d <= i -> deref ts 0 (i :: idx) = UB.
Proof. exact multi_tables_outside. Qed.
Print Assumptions C25_outside.
Example C25_example : row_major [2; 3; 4] [1; 2; 3] = 23 /\
  match multi_tables [2; 3; 4] with Ok ts => deref ts 0 [1; 2; 3] = Ok 23 /\ deref ts 0 [0; 1; 2] = Ok 6 | _ => False end.
Proof. vm_compute. repeat split; reflexivity. Qed.
Example C25_nonvacuous : (2 <= length [2; 3; 4])%nat /\ (forall d, In d [2; 3; 4] -> 0 < d) /\ product [2; 3; 4] < 2 ^ 64 /\
  in_range_idx [2; 3; 4] [1; 2; 3].
Proof.
  split; [cbn [length]; lia|]. split; [intros d [H|[H|[H|[]]]]; lia|]. split; [reflexivity|].
  repeat constructor; lia.
Qed.

(* ------------------------------------------------------------------ *)
(** C66.  A double in an SDT file keeps six significant digits: it is exact when it has
    no more, and otherwise off by at most 5/10^6 of its size. *)
Theorem C66_six_digits : forall rnd mem pre post n q, mem < 2 ^ 64 -> 1 <= mem ->
  (forall c, In c (pre ++ post) -> ok_call rnd mem c) -> (forall c a b, In c pre -> defines c <> Some (n, DMat a b)) ->
  plain n -> in_range rnd (NDbl q) ->
  exists r q' v, opens rnd mem (write_file (pre ++ WScalar n (NDbl q) :: post)) r /\
    result r (RScalar n) = Ok (VNum v) /\ rnd q' = Some v /\ six_digits q q' /\
    (Qabs (q - q') <= (5 # 1000000) * Qabs q)%Q /\ (short_decimal q -> (q' == q)%Q).
Proof. exact double_scalar. Qed.
Print Assumptions C66_six_digits.
Theorem C66_exact_refuted : exists q v, result (opened (write_file [WScalar (s "x") (NDbl q)])) (RScalar (s "x")) = Ok (VNum v) /\ ~ (v == q)%Q.
Proof. exists (1234567 # 1), (1234570 # 1). split; [vm_compute; reflexivity|discriminate]. Qed.
Print Assumptions C66_exact_refuted.
Example C66_example : result (opened (write_file [WScalar (s "x") (NDbl (-3141592653589793 # 1000000000000000))])) (RScalar (s "x"))
  = Ok (VNum (-314159 # 100000)).
Proof. vm_compute. reflexivity. Qed.
Example C66_nonvacuous : plain (s "x") /\ in_range exact (NDbl (1 # 3)) /\ short_decimal (1 # 8) /\ six_digits (1 # 3) (333333 # 1000000).
Proof.
  split; [ex_plain|]. split; [intros q _; discriminate|]. split; [exists 125, (-3); split; [lia|reflexivity]|].
  right. exists 333333, (-6). repeat split; vm_compute; try discriminate; reflexivity.
Qed.

(* ------------------------------------------------------------------ *)
(** C110.  Writing a number that is not finite succeeds, but the file can then not be
    opened: whatever was written before and after, opening throws. *)
Theorem C110_refused : forall rnd mem pre c post, mem < 2 ^ 64 -> (forall d, In d pre -> ok_call rnd mem d) -> writes_nonfinite c ->
  load rnd mem (write_file (pre ++ c :: post)) = Some Throw /\ forall r, ~ opens rnd mem (write_file (pre ++ c :: post)) r.
Proof.
  intros rnd mem pre c post Hm Hp Hc. pose proof (load_nonfin rnd mem pre c post Hm Hp Hc) as L. split; [exact L|].
  intros r (st & O & _). rewrite L in O. discriminate O.
Qed.
Print Assumptions C110_refused.
(** So a variable that could be read is lost by writing another one after it. *)
Theorem C110_round_trip_refuted : exists n m q x,
  result (opened (write_file [WScalar n (NDbl q)])) (RScalar n) = Ok (VNum q) /\
  load exact ex_mem (write_file [WScalar n (NDbl q); WScalar m (NNon x)]) = Some Throw.
Proof. exists (s "a"), (s "b"), (15 # 10), (NaN false). split; vm_compute; reflexivity. Qed.
Print Assumptions C110_round_trip_refuted.
Example C110_example : load exact ex_mem (write_file [WString (s "t") (s "x"); WArray (s "m") 2 [[NInt 1; NInt 2]; [NDbl (1 # 2); NNon (Inf true)]]]) = Some Throw /\
  load exact ex_mem (write_file [WAttrNonfin (s "d") (s "a") (NaN true)]) = Some Throw.
Proof. split; vm_compute; reflexivity. Qed.
Example C110_nonvacuous : ok_call exact ex_mem (WString (s "t") (s "x")) /\
  writes_nonfinite (WArray (s "m") 2 [[NInt 1; NInt 2]; [NDbl (1 # 2); NNon (Inf true)]]) /\
  writes_nonfinite (WAttrNonfin (s "d") (s "a") (NaN true)).
Proof.
  split; [split; [ex_plain|vm_compute; discriminate]|]. split.
  - exists (s "m"), 2%nat, [[NInt 1; NInt 2]; [NDbl (1 # 2); NNon (Inf true)]], [NDbl (1 # 2); NNon (Inf true)], (Inf true).
    split; [reflexivity|]. split; [ex_plain|]. split; [intros r [<-|[<-|[]]]; reflexivity|]. split; [reflexivity|].
    split; [right; left; reflexivity|right; left; reflexivity].
  - exists (s "d" ++ str_of "_" ++ s "a"), 1%nat, [[NNon (NaN true)]], [NNon (NaN true)], (NaN true).
    split; [reflexivity|]. split; [ex_plain|]. split; [intros r [<-|[]]; reflexivity|]. split; [reflexivity|].
    split; left; reflexivity.
Qed.

(* ------------------------------------------------------------------ *)
(** C67.  The text header of a MAT file has 116 bytes and names the week day and the
    month before the current one; in January it reads outside the table of names. *)
Theorem C67_mat_header : forall t, valid_tm t ->
  (1 <= t_mon t -> exists x, mat_header t = Ok x /\ length x = 116%nat /\
     firstn 59 x = str_of "MATLAB 7.3 MAT-file, Platform: libsoft, Created on: " ++
       nth (Z.to_nat (t_wday t)) day_names [] ++ cSP :: nth (Z.to_nat (t_mon t - 1)) month_names []) /\
  (t_mon t = 0 -> mat_header t = UB).
Proof. exact mat_header_all. Qed.
Print Assumptions C67_mat_header.
(** So the header never names the current month. *)
Theorem C67_month_refuted : ~ exists t x, valid_tm t /\ mat_header t = Ok x /\
  firstn 59 x = str_of "MATLAB 7.3 MAT-file, Platform: libsoft, Created on: " ++
    nth (Z.to_nat (t_wday t)) day_names [] ++ cSP :: nth (Z.to_nat (t_mon t)) month_names [].
Proof. exact mat_header_month. Qed.
Print Assumptions C67_month_refuted.
Example C67_example : mat_header (Tm 1 10 16 0 7 5 2026) =
  Ok (s "MATLAB 7.3 MAT-file, Platform: libsoft, Created on: Mon Oct 16 00:07:05 2026 HDF5 schema 1.00 .                     ").
Proof. vm_compute. reflexivity. Qed.
Example C67_nonvacuous : valid_tm (Tm 1 10 16 0 7 5 2026) /\ valid_tm (Tm 4 0 1 0 0 0 2026).
Proof. split; unfold valid_tm; cbn; lia. Qed.

(* ------------------------------------------------------------------ *)
(** C68.  Writing a multi-dimensional integer array to a MAT file never succeeds; when
    the name is new the data is nevertheless in the file afterwards. *)
Theorem C68_mat_multi_int_refuted : forall t cls f name dims data, t <> HString ->
  fst (mat_write_multi_int t cls f name dims data) = Throw /\
  (h5_has f name = false -> forall k, (length dims <= k)%nat ->
     h5_get_multi (snd (mat_write_multi_int t cls f name dims data)) name k = Ok (Some (dims, data))) /\
  (h5_has f name = true -> snd (mat_write_multi_int t cls f name dims data) = f).
Proof. exact mat_multi_int. Qed.
Print Assumptions C68_mat_multi_int_refuted.
Example C68_example : mat_write_multi_int HI32 (s "int32") [] (s "a") [1; 2; 1] [7; 8]%Q
  = (Throw, [(s "a", Dataset HI32 [1; 2; 1] [7; 8]%Q)]).
Proof. vm_compute. reflexivity. Qed.
