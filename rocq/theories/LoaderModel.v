(** Model of the loaders of numeric distribution functions.
    Source: src/DistributionFunction/SOFTDistributionFunction.cpp, DREAMDistributionFunction.cpp,
    LUKEDistributionFunction.cpp and deprSOFTDistributionFunction.cpp.
    A file is known by its variables: [None] is a missing one, and asking for it throws.
    Numbers are real (no rounding); sizes are below 2^32, so that the unsigned arithmetic on
    them is exact, except for the time index of DREAM files, which is computed modulo 2^64.
    Closing the file and freeing the pointers to rows are not modelled (SOFTDistributionFunction.cpp:230
    frees them with [delete], which is only defined for [delete []]), nor are verification vectors
    that are not numeric. *)
From Coq Require Import Reals.
From Verif Require Import Base DomainModel NumericModel DistributionModel CodeModel.
Local Open Scope R_scope.

(** A vector stored as a row or as a column, read through its first row
    (SOFTDistributionFunction.cpp:216-219 and many others). *)
Definition read_vector (a : option (marray R)) : outcome (list R) :=
  obind (need a) (fun a => obind (vector_length a) (fun n => fill n (aget a 0))).

(** The pointer to the first row is kept: [tp[0]] (SOFTDistributionFunction.cpp:240-241 and others).
    An array without rows has none. *)
Definition first_row (a : option (marray R)) : outcome unit := obind (need a) (fun a => release a).

(** SOFTDistributionFunction.h [softmdf_data], with a table of at least [np*nxi] elements. *)
Record table : Type := Table { t_p : list R; t_xi : list R; t_f : list R }.
(** The end of the Load functions: inserting one table per radius
    (SOFTDistributionFunction.cpp:42-60, DREAMDistributionFunction.cpp:63-79). *)
Fixpoint insert_tables (lg : bool) (it : Z) (o : ndf) (l : list (R * table)) : outcome ndf :=
  match l with
  | [] => Ok o
  | (x, t) :: rest =>
      let (o', r) := if lg then nd_insert_log o x (t_p t) (t_xi t) (t_f t) it false
                     else nd_insert o x (t_p t) (t_xi t) (map Fin (t_f t)) it in
      obind r (fun _ => insert_tables lg it o' rest)
  end.
(** LoadMomentumSpace: one table as a distribution of its own
    (SOFTDistributionFunction.cpp:107-110 and others). *)
Definition momentum (lg : bool) (it : Z) (t : table) : outcome msdf :=
  if lg then ms_initialize_log (t_p t) (t_xi t) (t_f t) it
  else ms_initialize false false (t_p t) (t_xi t) (map Fin (t_f t)) it.

(** * SOFT files *)
(** The variables of one radius (SOFTDistributionFunction.cpp:209-265). *)
Record sgroup : Type := SGroup { sg_p : option (marray R); sg_xi : option (marray R); sg_f : option (marray R) }.
(** SOFTDistributionFunction.cpp:209-265 [__LoadRadius]. *)
Definition soft_radius (g : sgroup) : outcome table :=
  obind (read_vector (sg_p g)) (fun p => obind (read_vector (sg_xi g)) (fun xi =>
  obind (need (sg_f g)) (fun f => obind (release f) (fun _ =>
  if (negb (ma_rows f =? length xi) || negb (ma_cols f =? length p))%nat%bool then Throw
  else obind (first_row (sg_p g)) (fun _ => obind (first_row (sg_xi g)) (fun _ => Ok (Table p xi (ma_data f)))))))).
(** SOFTDistributionFunction.cpp:142-197 [__Load]: [magic] tells whether the variable [type],
    if there is one, has the right value; [groups i] is the group "r[i]/"; [axis] is the major
    radius of the magnetic axis. *)
Definition soft_raw (magic : option bool) (r : option (marray R)) (groups : nat -> sgroup) (axis : R) : outcome (list (R * table)) :=
  match magic with Some false => Throw | _ =>
  obind (need r) (fun a => obind (vector_length a) (fun nr =>
  obind (fill nr (fun i => soft_radius (groups i))) (fun ts =>
  obind (release a) (fun _ => obind (fill nr (fun i => obind (aget a 0 i) (fun v => Ok (v + axis)))) (fun rs =>
  if negb (monotone true rs) then Throw else Ok (combine rs ts))))))
  end.
(** SOFTDistributionFunction.cpp:38-64 [Load] into a new object. *)
Definition soft_load (magic : option bool) (r : option (marray R)) (groups : nat -> sgroup) (axis : R) (lg : bool) (it : Z) : outcome ndf :=
  obind (soft_raw magic r groups axis) (fun l => insert_tables lg it rd_new l).
(** SOFTDistributionFunction.cpp:89-130 [LoadMomentumSpace]. *)
Definition soft_momentum (magic : option bool) (r : option (marray R)) (groups : nat -> sgroup) (axis : R) (lg : bool) (i : nat) (it : Z) : outcome msdf :=
  obind (soft_raw magic r groups axis) (fun l =>
  match nth_error l i with None => Throw | Some (_, t) => momentum lg it t end).

(** * DREAM files *)
(** Variables by name: is there one (of any kind), and its contents as a multi-dimensional array or
    as a vector (DREAMDistributionFunction.cpp:86-160). *)
Record dream : Type := Dream { has : string -> bool; dr_array : string -> option (list nat * list R); dr_vec : string -> option (list R) }.
(** [s.substr(s.length() - n)], which throws if [s] is shorter than [n]
    (DREAMDistributionFunction.cpp:109-112). *)
Definition tail_of (s : string) (n : nat) : outcome string :=
  if (String.length s <? n)%nat then Throw else Ok (String.substring (String.length s - n) n s).
(** DREAMDistributionFunction.cpp:92-107: the variable to use. *)
Definition dream_name (d : dream) (distname : string) : outcome string :=
  let name :=
    match distname with
    | EmptyString => if has d "/eqsys/f_re" then Ok "/eqsys/f_re"%string else if has d "/eqsys/f_hot" then Ok "/eqsys/f_hot"%string else Throw
    | String c _ => Ok (if Ascii.eqb c "/" then distname else String.append "/eqsys/" distname)
    end in
  obind name (fun name => if has d name then Ok name else Throw).
(** DREAMDistributionFunction.cpp:109-115: the momentum grid that belongs to it. *)
Definition dream_grid (name : string) : outcome string :=
  obind (tail_of name 4) (fun s => if String.eqb s "f_re" then Ok "/grid/runaway"%string else
  obind (tail_of name 5) (fun s => if String.eqb s "f_hot" then Ok "/grid/hottail"%string else Throw)).
(** DREAMDistributionFunction.cpp:137-148: the first element of the slice, from the number of
    slices [nt] and the size [n] of each; [None]: refused. *)
Definition time_index (nt n : nat) (timestep : Z) : option Z :=
  let t := (((if timestep <? 0 then Z.of_nat nt + timestep else timestep) * Z.of_nat n) mod 2 ^ 64)%Z in
  if ((Z.of_nat nt * Z.of_nat n) mod 2 ^ 64 <? t)%Z then None else Some t.
(** DREAMDistributionFunction.cpp:86-192 [__Load]: the offset and the tables. *)
Definition dream_raw (d : dream) (axis : R) (distname : string) (timestep : Z) : outcome (Z * list (R * table)) :=
  obind (dream_name d distname) (fun name => obind (dream_grid name) (fun grid =>
  obind (need (dr_array d name)) (fun a =>
  obind (need (dr_vec d "/grid/t")) (fun ts => obind (need (dr_vec d "/grid/r")) (fun r =>
  obind (need (dr_vec d (String.append grid "/p1"))) (fun p => obind (need (dr_vec d (String.append grid "/p2"))) (fun xi =>
  match fst a with
  | [_; a1; a2; a3] =>
      if negb ((a1 =? length r) && (a2 =? length xi) && (a3 =? length p))%nat%bool then Throw else
      match time_index (length ts) (length r * length p * length xi) timestep with
      | None => Throw
      | Some t =>
          let rs := map (fun v => v + axis) r in
          let n := (length p * length xi)%nat in
          if negb (monotone true rs) then Throw else
          Ok (t, combine rs (map (fun i => Table p xi (skipn (Z.to_nat t + i * n) (snd a))) (seq 0 (length r))))
      end
  | _ => Throw
  end))))))).
(** DREAMDistributionFunction.h:10-26: the object with the position of its data in the block
    that was read. *)
Record dreamdf : Type := DreamDF { dd_dist : ndf; dd_offset : Z }.
(** DREAMDistributionFunction.cpp:54-80 [Load], called by the constructor. *)
Definition dream_load (d : dream) (axis : R) (distname : string) (timestep : Z) (lg : bool) (it : Z) : outcome dreamdf :=
  obind (dream_raw d axis distname timestep) (fun x =>
  obind (insert_tables lg it rd_new (snd x)) (fun o => Ok (DreamDF o (fst x)))).
(** DREAMDistributionFunction.cpp:37-43, the destructor: [delete[]] is given the start of the
    slice, which must be the start of the block. *)
Definition dream_destroy (o : dreamdf) : outcome unit := if (dd_offset o =? 0)%Z then Ok tt else UB.

(** * Whole tables: LUKE files and old SOFT files *)
(** The grids and the table of a file (LUKEDistributionFunction.h:16-19). *)
Record block : Type := Block { b_r : list R; b_p : list R; b_xi : list R; b_f : list R }.
(** LUKEDistributionFunction.cpp:35-54 and deprSOFTDistributionFunction.cpp:38-57 [Load]. *)
Definition block_load (b : block) (lg : bool) (it : Z) : outcome ndf :=
  if lg then obind (nd_initialize_log (b_r b) (b_p b) (b_xi b) (b_f b) it false) (fun x => Ok (fst x))
  else nd_initialize (b_r b) (b_p b) (b_xi b) (map Fin (b_f b)) it.
(** LUKEDistributionFunction.cpp:88-98 and deprSOFTDistributionFunction.cpp:94-104
    [LoadMomentumSpace]: [memcpy] of one slice. *)
Definition block_momentum (b : block) (lg : bool) (i : nat) (it : Z) : outcome msdf :=
  let n := (length (b_p b) * length (b_xi b))%nat in
  if (length (b_r b) <=? i)%nat then Throw else
  if (length (b_f b) <? i * n + n)%nat then UB else
  momentum lg it (Table (b_p b) (b_xi b) (firstn n (skipn (i * n) (b_f b)))).

(** LUKEDistributionFunction.cpp:118-217 [__Load]; [minr] and [maxr] are the major radius of
    the magnetic axis and the largest one of the field. *)
Record luke : Type := Luke
  { lk_r : option (marray R); lk_p : option (marray R); lk_beta : option (marray R); lk_xi : option (marray R); lk_f : option (list nat * list R) }.
Definition luke_raw (l : luke) (minr maxr : R) : outcome block :=
  obind (read_vector (lk_r l)) (fun r => obind (read_vector (lk_p l)) (fun p =>
  obind (need (lk_beta l)) (fun b => obind (scalar b) (fun beta =>
  obind (read_vector (lk_xi l)) (fun xi => obind (need (lk_f l)) (fun f =>
  match fst f with
  | [n0; n1; n2] =>
      if (negb (n0 =? length r) || negb (n1 =? length xi) || negb (n2 =? length p))%nat%bool then Throw
      else obind (first_row (lk_r l)) (fun _ => obind (first_row (lk_p l)) (fun _ => obind (first_row (lk_xi l)) (fun _ =>
           Ok (Block (map (fun x => minr + x * (maxr - minr)) r) (map (fun q => q * beta) p) xi (snd f)))))
  | _ => Throw
  end)))))).
Definition luke_load (l : luke) (minr maxr : R) (lg : bool) (it : Z) : outcome ndf := obind (luke_raw l minr maxr) (fun b => block_load b lg it).
Definition luke_momentum (l : luke) (minr maxr : R) (lg : bool) (i : nat) (it : Z) : outcome msdf := obind (luke_raw l minr maxr) (fun b => block_momentum b lg i it).

(** DBL_EPSILON (deprSOFTDistributionFunction.cpp:278-280). *)
Definition epsilon : R := / 2 ^ 52.
(** deprSOFTDistributionFunction.cpp:274-282: comparing the elements from number [i] on. *)
Fixpoint compare_from (v : list R) (step i : nat) (f0 : list R) : outcome bool :=
  match f0 with
  | [] => Ok true
  | x :: rest =>
      obind (dget v (i * step)) (fun y =>
      let err := Rabs (x - y) in
      if Req_EM_T x 0 then (if Rlt_dec epsilon err then Ok false else compare_from v step (S i) rest)
      else if Rlt_dec epsilon (err / Rabs x) then Ok false else compare_from v step (S i) rest)
  end.
(** deprSOFTDistributionFunction.cpp:257-285 [Verify]. *)
Definition depr_verify (a : option (marray R)) (v : list R) (n step : nat) : outcome bool :=
  match a with
  | None => Ok true
  | Some a =>
      obind (if ((ma_rows a =? 1) && (ma_cols a <=? n))%nat%bool then Ok (ma_cols a)
             else if ((ma_cols a =? 1) && (ma_rows a <=? n))%nat%bool then Ok (ma_rows a) else Throw) (fun k =>
      obind (fill k (aget a 0)) (fun f0 => compare_from v step 0 f0))
  end.
(** constants.h:7,10 and deprSOFTDistributionFunction.h:9. *)
Definition light_speed : R := 299792458.
Definition electron_mass_ev : R := 5109989461 / 10 ^ 4.
Record depr : Type := Depr
  { dp_r : option (marray R); dp_p : option (marray R); dp_xi : option (marray R); dp_f : option (marray R);
    dp_fp0 : option (marray R); dp_fxi0 : option (marray R); dp_fr0 : option (marray R); dp_units : option string }.
(** deprSOFTDistributionFunction.cpp:175-182: the unit of momentum. *)
Definition depr_unit (u : string) : outcome R :=
  if String.eqb u "ev" then Ok electron_mass_ev else if String.eqb u "normalized" then Ok 1
  else if String.eqb u "si" then Ok (electron_mass * light_speed) else Throw.
(** deprSOFTDistributionFunction.cpp:124-231 [__Load].  (Dividing by a unit of one, which the
    code does not do, changes nothing.) *)
Definition depr_raw (d : depr) : outcome block :=
  obind (read_vector (dp_r d)) (fun r => obind (read_vector (dp_p d)) (fun p => obind (read_vector (dp_xi d)) (fun xi =>
  obind (need (dp_f d)) (fun f => obind (release f) (fun _ =>
  let nr := length r in let np := length p in let nxi := length xi in
  if (negb ((ma_rows f =? nr) && (ma_cols f =? np * nxi)) && negb ((ma_rows f =? 1) && (ma_cols f =? np * nxi * nr)) &&
      negb ((ma_cols f =? 1) && (ma_rows f =? np * nxi * nr)))%nat%bool then Throw else
  let check a n step k := obind (depr_verify a (ma_data f) n step) (fun b : bool => if b then k tt else Throw) in
  check (dp_fp0 d) np 1%nat (fun _ => check (dp_fxi0 d) nxi np (fun _ => check (dp_fr0 d) nr (np * nxi)%nat (fun _ =>
  obind (need (dp_units d)) (fun u => obind (depr_unit u) (fun norm =>
  obind (first_row (dp_r d)) (fun _ => obind (first_row (dp_p d)) (fun _ => obind (first_row (dp_xi d)) (fun _ =>
  Ok (Block r (map (fun q => q / norm) p) xi (ma_data f))))))))))))))).
Definition depr_load (d : depr) (lg : bool) (it : Z) : outcome ndf := obind (depr_raw d) (fun b => block_load b lg it).
Definition depr_momentum (d : depr) (lg : bool) (i : nat) (it : Z) : outcome msdf := obind (depr_raw d) (fun b => block_momentum b lg i it).
