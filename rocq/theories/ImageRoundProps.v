(** Colours computed with rounding (property C111): the value, the limits and the intermediate
    results are IEEE 754 doubles. *)
From Coq Require Import Reals Lra Lia.
From Flocq Require Import Core.
From Verif Require Import Base RoundSpec RoundProofs ImageModel ImageSpec ImageRoundModel ImageRoundSpec ImageRoundProofs.
Local Open Scope R_scope.

(** A colour is found for every value that is not astronomically far outside of the limits. *)
Theorem C111_defined : forall t vmin vmax v hi, (1 <= length t)%nat -> (Z.of_nat (length t) < 2 ^ 31)%Z ->
  (1 <= hi < 2 ^ 32)%Z -> (forall p, In p t -> components_in 0 hi p) -> b64 v = v -> b64 vmin = vmin -> vmax <> 0 ->
  Rabs (v - vmin) <= bpow radix2 1023 -> Rabs ((v - vmin) / vmax) <= bpow radix2 1000 ->
  Rabs ((v - vmin) / vmax * IZR (Z.of_nat (length t) - 1)) <= bpow radix2 30 ->
  exists c, eval_rnd b64 t vmin vmax v = Ok c.
Proof. exact defined_proof. Qed.
Print Assumptions C111_defined.

(** The position in the table has a relative error below 2^-51.  Outside of the table the colour is
    its first or last one; inside, each component is the integer part of a number within
    2^-49 times the largest component of the interpolated one, and from the second colour on it lies
    between the components of the neighbours. *)
Theorem C111_close : forall t vmin vmax v c hi, (1 <= length t)%nat -> (Z.of_nat (length t) < 2 ^ 31)%Z ->
  b64 v = v -> b64 vmin = vmin -> (1 <= hi < 2 ^ 32)%Z -> (forall p, In p t -> components_in 0 hi p) ->
  eval_rnd b64 t vmin vmax v = Ok c ->
  let x := (v - vmin) / vmax * IZR (Z.of_nat (length t) - 1) in
  exists i, Rabs (i - x) <= Rabs x * bpow radix2 (-51) + bpow radix2 (-1000) /\
    (IZR (Z.of_nat (length t) - 1) <= i -> nth_error t (length t - 1) = Some c) /\
    (i < 0 -> nth_error t 0 = Some c) /\
    (forall k p q, nth_error t k = Some p -> nth_error t (k + 1) = Some q -> INR k <= i < INR k + 1 ->
       near_blend (IZR hi * bpow radix2 (-49)) (i - INR k) p q c /\ ((1 <= k)%nat -> between p q c)).
Proof. exact close_between_proof. Qed.
Print Assumptions C111_close.

(** No component exceeds the largest one of the table, and none is smaller than the smallest one
    by more than one. *)
Theorem C111_range : forall t vmin vmax v c lo hi, (1 <= length t)%nat -> (Z.of_nat (length t) < 2 ^ 31)%Z ->
  (0 <= lo)%Z -> (1 <= hi < 2 ^ 32)%Z -> (forall p, In p t -> components_in lo hi p) ->
  eval_rnd b64 t vmin vmax v = Ok c -> components_in (Z.max 0 (lo - 1)) hi c.
Proof. exact range_proof. Qed.
Print Assumptions C111_range.

(** That it can be one smaller: 3/7 of the way between two equal colours. *)
Theorem C111_range_refuted : exists v c, b64 v = v /\ v = b64 (3 / 7) /\ components_in 29 29 c /\
  eval_rnd b64 [c; c] 0 1 v = Ok (Color 28 28 28).
Proof.
  exists v37, (Color 29 29 29). split; [ exact v37_ok |]. split; [ exact v37_is |].
  split; [ unfold components_in; cbn; lia | exact equal_refuted_proof ].
Qed.
Print Assumptions C111_range_refuted.

(** The limits of a map that starts at zero: its first colour up to zero, its last one from
    [vmax] on. *)
Theorem C111_limits : forall t vmax v c, (2 <= length t)%nat -> (Z.of_nat (length t) < 2 ^ 31)%Z -> b64 v = v -> 0 < vmax ->
  eval_rnd b64 t 0 vmax v = Ok c -> (v < 0 -> bpow radix2 (-1000) <= - v / vmax -> nth_error t 0 = Some c) /\ (vmax <= v -> nth_error t (length t - 1) = Some c).
Proof. exact limits_proof. Qed.
Print Assumptions C111_limits.

(** The built-in maps: all components are bytes; the gray map is gray, and not darker for larger
    values. *)
Theorem C111_builtin : forall v, b64 v = v -> Rabs v <= bpow radix2 27 ->
  (exists c, eval_rnd b64 (cm_colors gray) 0 1 v = Ok c /\ components_in 0 255 c /\ red c = green c /\ red c = blue c) /\
  (exists c, eval_rnd b64 (cm_colors gerimap) 0 1 v = Ok c /\ components_in 0 255 c).
Proof. exact builtin_proof. Qed.
Print Assumptions C111_builtin.
Theorem C111_gray_monotone : forall v w c d, b64 v = v -> b64 w = w -> v <= w ->
  eval_rnd b64 (cm_colors gray) 0 1 v = Ok c -> eval_rnd b64 (cm_colors gray) 0 1 w = Ok d -> (red c <= red d)%Z.
Proof. exact gray_monotone_proof. Qed.
Print Assumptions C111_gray_monotone.

(** A colour of the built-in map in the middle of the range. *)
Example C111_example : exists c, eval_rnd b64 (cm_colors gerimap) 0 1 (11/16) = Ok c /\ red c = 230%Z /\ b64 (11/16) = 11/16.
Proof. exact gerimap_example. Qed.
