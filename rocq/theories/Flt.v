(** IEEE-754 [double] and [float] (Flocq), and the C++ operations on them that
    the model uses: comparisons, [std::isnan], integer conversions.  NaNs are
    identified (their payload is never observed in /repo). *)
From Coq Require Import ZArith Bool Reals.
From Flocq Require Import Core BinarySingleNaN.
From Verif Require Import Base.
Open Scope Z_scope.

Definition double := binary_float 53 1024.
Definition float := binary_float 24 128.

Definition prec53 : Prec_gt_0 53 := eq_refl.
Definition emax53 : Prec_lt_emax 53 1024 := eq_refl.
Definition prec24 : Prec_gt_0 24 := eq_refl.
Definition emax24 : Prec_lt_emax 24 128 := eq_refl.

(** C++ [operator<], [operator<=] on floating point: false when a NaN is
    involved. *)
Definition flt {p e} (x y : binary_float p e) : bool := Bltb x y.
Definition fle {p e} (x y : binary_float p e) : bool := Bleb x y.

(** Integer to [double] conversion, round to nearest even. *)
Definition double_of_Z (z : Z) : double :=
  binary_normalize 53 1024 prec53 emax53 mode_NE z 0 false.

(** [double] to [float], round to nearest even. *)
Definition float_of_double (d : double) : float :=
  match d with
  | B754_nan => B754_nan
  | B754_infinity s => B754_infinity s
  | B754_zero s => B754_zero s
  | B754_finite s m e _ =>
      binary_normalize 24 128 prec24 emax24 mode_NE (SpecFloat.cond_Zopp s (Zpos m)) e s
  end.

(** [float] to [double] (always exact). *)
Definition double_of_float (d : float) : double :=
  match d with
  | B754_nan => B754_nan
  | B754_infinity s => B754_infinity s
  | B754_zero s => B754_zero s
  | B754_finite s m e _ =>
      binary_normalize 53 1024 prec53 emax53 mode_NE (SpecFloat.cond_Zopp s (Zpos m)) e s
  end.

(** Conversion of a [double] to an integer type with range [[lo, hi]]
    ([conv.fpint]): truncation toward zero; undefined if the truncated value
    cannot be represented (or the operand is not finite). *)
Definition int_of_double (lo hi : Z) (d : double) : outcome Z :=
  if is_finite d then
    let t := Btrunc d in
    if (lo <=? t) && (t <=? hi) then Ok t else UB ub_conversion
  else UB ub_conversion.

(** Mathematical value of a non-NaN floating point number, infinities being
    placed outside the finite range (at 2^1024 for [float] and [double]). *)
Definition inf_val (e : Z) : R := bpow radix2 (Z.max e 1024).

Definition fval {p e} (x : binary_float p e) : R :=
  match x with
  | B754_infinity false => inf_val e
  | B754_infinity true => (- inf_val e)%R
  | _ => B2R x
  end.

(** Decimal-free literals: the double nearest to [m * 2^e]. *)
Definition dlit (m e : Z) : double :=
  binary_normalize 53 1024 prec53 emax53 mode_NE m e false.
