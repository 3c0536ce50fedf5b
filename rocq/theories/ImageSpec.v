(** Specification of the plain PPM format (netpbm "P3") and of linear colour tables, written
    without reference to the code. *)
From Coq Require Import QArith Qround.
From Verif Require Import Base SettingsProofs ImageModel.
Local Open Scope Z_scope.

(** White space separates the tokens of a plain PPM file. *)
Definition blank (c : ascii) : bool :=
  (Nat.eqb (nat_of_ascii c) 32 || (Nat.leb 9 (nat_of_ascii c) && Nat.leb (nat_of_ascii c) 13))%bool.
Fixpoint tokens (cur : str) (s : str) : list str :=
  match s with
  | [] => match cur with [] => [] | _ => [rev cur] end
  | c :: r => if blank c then (match cur with [] => tokens [] r | _ => rev cur :: tokens [] r end)
              else tokens (c :: cur) r
  end.
Definition is_digit (c : ascii) : bool := (Nat.leb 48 (nat_of_ascii c) && Nat.leb (nat_of_ascii c) 57)%bool.
(** A non-negative decimal number. *)
Definition number (s : str) : option Z :=
  match s with [] => None | _ => if forallb is_digit s then Some (decimal s) else None end.
Fixpoint numbers (l : list str) : option (list Z) :=
  match l with
  | [] => Some []
  | x :: r => match number x, numbers r with Some a, Some b => Some (a :: b) | _, _ => None end
  end.
Fixpoint triples (l : list Z) : option (list color) :=
  match l with
  | [] => Some []
  | a :: b :: c :: r => match triples r with Some x => Some (Color a b c :: x) | None => None end
  | _ => None
  end.
Definition valid_color (m : Z) (c : color) : bool :=
  ((0 <=? red c) && (red c <=? m) && (0 <=? green c) && (green c <=? m) && (0 <=? blue c) && (blue c <=? m))%bool.
(** What a reader of plain PPM files finds: "P3", width, height, maximum, and width*height
    colours not exceeding the maximum. *)
Definition read_ppm (s : str) : option (Z * Z * Z * list color) :=
  match tokens [] s with
  | magic :: rest =>
      if str_eqb magic (str_of "P3") then
        match numbers rest with
        | Some (w :: h :: m :: r) =>
            match triples r with
            | Some cs => if ((Z.of_nat (length cs) =? w * h) && forallb (valid_color m) cs)%bool
                         then Some (w, h, m, cs) else None
            | None => None
            end
        | _ => None
        end
      else None
  | [] => None
  end.
(** The colour in column [x] of line [y] of an image of width [w]: lines follow one another. *)
Definition at_position (w : Z) (cs : list color) (x y : Z) (c : color) : Prop :=
  nth_error cs (Z.to_nat (y * w + x)) = Some c.

(** All components of all colours of a table lie in [lo, hi]. *)
Definition components_in (lo hi : Z) (c : color) : Prop :=
  lo <= red c <= hi /\ lo <= green c <= hi /\ lo <= blue c <= hi.
(** The colour a fraction [f] of the way from [a] to [b], rounded down. *)
Definition blend (f : Q) (a b c : color) : Prop :=
  red c = Qfloor ((1 - f) * inject_Z (red a) + f * inject_Z (red b)) /\
  green c = Qfloor ((1 - f) * inject_Z (green a) + f * inject_Z (green b)) /\
  blue c = Qfloor ((1 - f) * inject_Z (blue a) + f * inject_Z (blue b)).

(** The nine colours of the map "gerimap", as published in the header. *)
Definition gerimap_published : list color :=
  [Color 0 0 0; Color 38 38 128; Color 76 38 191; Color 153 51 128; Color 255 64 38;
   Color 230 128 0; Color 230 191 26; Color 230 230 128; Color 255 255 255].
