(** Model of the integration of peaked functions. *)
From Coq Require Import Reals ZArith List.
From Verif Require Import Base.
Local Open Scope R_scope.

(** * Search for the maximum *)
(** PeakedIntegration.cpp:96. *)
Definition invphi : R := 1 / 2 * (sqrt 5 - 1).
Definition invphi2 : R := invphi * invphi.
(** The local variables [a], [b], [c], [d], [h], [yc] and [yd] of PeakedIntegration.cpp:98. *)
Record bracket : Type := Bracket { lo : R; hi : R; pc : R; pd : R; wd : R; yc : R; yd : R }.
(** Conversion of a floating-point number to unsigned int, which drops the fraction and is
    undefined if the rest does not fit. ([Int_part] of a number between -1 and 0 is -1, and
    [Z.to_nat] makes that 0.) (PeakedIntegration.cpp:111). *)
Definition to_unsigned (q : R) : outcome nat :=
  if Rlt_dec (-1) q then if Rlt_dec q (IZR 4294967296) then Ok (Z.to_nat (Int_part q)) else UB else UB.

Section Golden.
  (** The function is a parameter. It is assumed to return a number that is finite, always the
      same for the same argument, and not to throw. *)
  Variable f : R -> R.
  (** PeakedIntegration.cpp:102-109. *)
  Definition golden_start : bracket :=
    let a := 0 in let b := 2 * PI in let h := b - a in let c := a + invphi2 * h in let d := a + invphi * h in
    Bracket a b c d h (f c) (f d).
  (** PeakedIntegration.cpp:114-128, the body of the loop. *)
  Definition golden_step (s : bracket) : bracket :=
    if Rlt_dec (yd s) (yc s) then
      let b := pd s in let d := pc s in let h := invphi * wd s in let c := lo s + invphi2 * h in
      Bracket (lo s) b c d h (f c) (yc s)
    else
      let a := pc s in let c := pd s in let h := invphi * wd s in let d := a + invphi * h in
      Bracket a (hi s) c d h (yd s) (f d).
  (** PeakedIntegration.cpp:113-129, the loop. *)
  Fixpoint golden (n : nat) (s : bracket) : bracket := match n with O => s | S k => golden k (golden_step s) end.
  (** PeakedIntegration.cpp:131-134. *)
  Definition golden_answer (s : bracket) : R :=
    if Rlt_dec (yc s) (yd s) then 1 / 2 * (lo s + pd s) else 1 / 2 * (hi s + pc s).
  (** PeakedIntegration.cpp:92-135 [FindMaximum]. The logarithm of a number that is not positive
      is not finite, and cannot be converted. *)
  Definition find_maximum (tol : R) : outcome R :=
    if Rlt_dec 0 tol then
      obind (to_unsigned (ln (tol / (2 * PI - 0)) / ln invphi)) (fun nmax => Ok (golden_answer (golden nmax golden_start)))
    else UB.
End Golden.
(** PeakedIntegration.h:22, the default tolerance. *)
Definition default_tol : R := 1 / 100.

(** * Integration *)
Section Evaluate.
  Variable f : R -> R.
  Variable a b falloff cutoff : R.
  (** PeakedIntegration.cpp:58-78: the loop, and the recursive calls in it, which begin again from
      another maximum ([again]). [None] if [fuel] rounds are not enough; the theorems tell when
      that can be. *)
  Fixpoint peak_loop (fuel : nat) (m fmax s delta fp fm : R) : option R :=
    match fuel with
    | O => None
    | S k =>
        let again m' fmax' := peak_loop k m' fmax' fmax' falloff (f (m' + falloff)) (f (m' - falloff)) in
        if Rlt_dec (fmax * cutoff) (Rmax fp fm) then
          if Rlt_dec fmax fp then again (m + delta) fp
          else if Rlt_dec fmax fm then again (m - delta) fm
          else
            let delta' := delta + falloff in
            let fp' := if Rlt_dec (m + delta') b then f (m + delta') else 0 in
            let fm' := if Rlt_dec a (m - delta') then f (m - delta') else 0 in
            peak_loop k m fmax (s + (fp + fm)) delta' fp' fm'
        else Some (falloff * (s + 1 / 2 * (fp + fm)))
    end.
  (** PeakedIntegration.cpp:41-81 [Evaluate] with a given maximum. *)
  Definition peak_evaluate (fuel : nat) (m fmax : R) : outcome (option R) :=
    if Req_EM_T falloff 0 then Throw else Ok (peak_loop fuel m fmax fmax falloff (f (m + falloff)) (f (m - falloff))).
  (** PeakedIntegration.cpp:30-39 [Evaluate]. *)
  Definition peak_integral (fuel : nat) : outcome (option R) :=
    obind (find_maximum f default_tol) (fun m => peak_evaluate fuel m (f m)).
End Evaluate.
