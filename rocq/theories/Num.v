(** Arithmetic used by the model of data paths.  A record of operations with
    two instances: IEEE doubles (mode F of DESIGN.md) and real numbers with a
    NaN (mode R).  The same model definitions are used with both. *)
From Coq Require Import ZArith Reals Bool.
From Flocq Require Import Core BinarySingleNaN.
From Verif Require Import Base Flt.
Open Scope R_scope.

(** Mode R datum: a real number or NaN. *)
Inductive num := NaN | Num (r : R).

Definition num2 (f : R -> R -> num) (x y : num) : num :=
  match x, y with Num a, Num b => f a b | _, _ => NaN end.

(** Division by zero gives NaN in mode R (infinities are not modelled there;
    no theorem relies on it). *)
Definition num_div (x y : num) : num :=
  num2 (fun a b => if Req_bool b 0 then NaN else Num (a / b)) x y.

Definition num_isnan (x : num) : bool := match x with NaN => true | _ => false end.
Definition num_lt (x y : num) : bool :=
  match x, y with Num a, Num b => Rlt_bool a b | _, _ => false end.

Definition num_abs (x : num) : num := match x with Num a => Num (Rabs a) | NaN => NaN end.

(** [static_cast<std::size_t>(x)]: undefined for NaN and outside (-1, 2^64). *)
Definition num_size (x : num) : outcome Z :=
  match x with
  | NaN => UB ub_conversion
  | Num r => let z := Ztrunc r in
             if ((0 <=? z) && (z <? size_mod))%Z then Ok z else UB ub_conversion
  end.

Record arith := Arith {
  acar :> Type;
  a_add : acar -> acar -> acar;
  a_sub : acar -> acar -> acar;
  a_mul : acar -> acar -> acar;
  a_div : acar -> acar -> acar;
  a_isnan : acar -> bool;
  a_lt : acar -> acar -> bool;
  a_of_Z : Z -> acar;
  a_size : acar -> outcome Z;
  a_abs : acar -> acar }.

Definition ar_num : arith :=
  Arith num
    (num2 (fun a b => Num (a + b))) (num2 (fun a b => Num (a - b)))
    (num2 (fun a b => Num (a * b))) num_div num_isnan num_lt
    (fun z => Num (IZR z)) num_size num_abs.

#[local] Existing Instance prec53.
#[local] Existing Instance emax53.

Definition ar_double : arith :=
  Arith double
    (Bplus mode_NE) (Bminus mode_NE) (Bmult mode_NE) (Bdiv mode_NE)
    is_nan flt double_of_Z (int_of_double 0 (size_mod - 1)) Babs.
