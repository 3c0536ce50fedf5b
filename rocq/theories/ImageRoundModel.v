(** Colormaps evaluated with rounding (include/softlib/ImageGenerator/ImageColormap.h).
    [ImageModel] interpolates with exact rationals; here each operation on doubles is followed
    by a rounding, and a result too large for a double makes the evaluation undefined. *)
From Coq Require Import Reals.
From Flocq Require Import Core.
From Verif Require Import Base ImageModel.
Local Open Scope R_scope.

(** ImageColormap.h:38-39: an infinite intermediate result makes [i] infinite or NaN, and
    converting that to int is undefined. *)
Definition finite_result (x : R) : outcome R := if Rlt_dec (Rabs x) (bpow radix2 1024) then Ok x else UB.

(** Conversion of a double to unsigned int: undefined when the truncated value does not fit
    (ImageColormap.h:54-56). *)
Definition double_to_unsigned (x : R) : outcome Z :=
  if ((0 <=? Ztrunc x) && (Ztrunc x <? 2 ^ 32))%Z%bool then Ok (Ztrunc x) else UB.

Section Rounded.
(** The rounding of the result of an operation. *)
Variable rnd : R -> R.

(** ImageColormap.h:54-56, one colour component before the conversion; an unsigned int is a double. *)
Definition mix_rnd (f : R) (a b : Z) : R := rnd (rnd (rnd (1 - f) * IZR a) + rnd (f * IZR b)).

(** ImageColormap.h:34-60 [Eval], for a value that is finite.  If [vmax] is zero then [i] is
    NaN or infinite, and converting it to int is undefined. *)
Definition eval_rnd (t : list color) (vmin vmax v : R) : outcome color :=
  if Req_EM_T vmax 0 then UB else
  obind (finite_result (rnd (v - vmin))) (fun d =>
  obind (finite_result (rnd (d / vmax))) (fun x =>
  let ncolors := u32 (Z.of_nat (length t)) in
  obind (finite_result (rnd (x * IZR (u32 (ncolors - 1))))) (fun i =>
  obind (double_to_int (Zfloor i)) (fun l =>
  if (to_int ncolors - 1 <=? l)%Z then color_at t (u32 (ncolors - 1))
  else if (l <? 0)%Z then color_at t 0
  else let f := rnd (i - IZR l) in
       obind (color_at t l) (fun a =>
       obind (color_at t (l + 1)) (fun b =>
       obind (double_to_unsigned (mix_rnd f (red a) (red b))) (fun r =>
       obind (double_to_unsigned (mix_rnd f (green a) (green b))) (fun g =>
       obind (double_to_unsigned (mix_rnd f (blue a) (blue b))) (fun b =>
       Ok (Color r g b)))))))))).
End Rounded.
