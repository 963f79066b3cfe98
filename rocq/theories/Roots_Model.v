(** MaRC::quadratic_roots in doubles. *)
From Coq Require Import ZArith.
From Flocq Require Import Core BinarySingleNaN.
From Verif Require Import Base Flt Num Proj_Model.
Open Scope Z_scope.

#[local] Existing Instance prec53.
#[local] Existing Instance emax53.

(** [sgn], lib/marc/Mathematics.h:146-152. *)
Definition double_sgn (x : double) : Z := Z.b2z (a_le ar_double (double_of_Z 0) x) - Z.b2z (flt x (double_of_Z 0)).

(** [quadratic_roots], lib/marc/Mathematics.h:176-201; std::sqrt is the square
    root of IEEE 754. *)
Definition double_roots (a b c : double) : option (double * double) :=
  let discriminant := Bminus mode_NE (Bmult mode_NE b b) (Bmult mode_NE (Bmult mode_NE (double_of_Z 4) a) c) in
  if flt discriminant (double_of_Z 0) then None
  else
    let q := Bdiv mode_NE (Bopp (Bplus mode_NE b (Bmult mode_NE (double_of_Z (double_sgn b)) (Bsqrt mode_NE discriminant))))
               (double_of_Z 2) in
    Some (Bdiv mode_NE q a, Bdiv mode_NE c q).
