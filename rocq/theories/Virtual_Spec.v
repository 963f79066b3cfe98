(** Specification vocabulary for C53-C56, C60 and C88. *)
From Coq Require Import ZArith Reals.
From Flocq Require Import Core BinarySingleNaN.
From Verif Require Import Base Flt Num Extrema_Model Virtual_Model.
Open Scope R_scope.

(** A mathematics library: std::log10 is accurate to 1/10 and is minus infinity
    at zero; std::pow(10, k) is exact for the powers of ten that are doubles. *)
Definition accurate (L : scale_libm) : Prop :=
  (forall x : double, is_finite x = true -> 0 < B2R x ->
     is_finite (s_log10 L x) = true /\ Rabs (B2R (s_log10 L x) - ln (B2R x) / ln 10) <= 1 / 10) /\
  (forall x : double, is_finite x = true -> B2R x = 0 -> s_log10 L x = B754_infinity true) /\
  (forall k, (0 <= k <= 22)%Z -> s_pow10 L k = double_of_Z (10 ^ k)).

(** Least and greatest value of an integral map type. *)
Inductive type_range : mapty -> Z -> Z -> Prop :=
| range_u8 : type_range U8 0 255
| range_i16 : type_range I16 (-32768) 32767
| range_i32 : type_range I32 (-2147483648) 2147483647
| range_i64 : type_range I64 (-9223372036854775808) 9223372036854775807.

(** Documented range of the values of a plane. *)
Definition plane_range (p : plane) (r : R) : Prop :=
  match p with
  | latitude_plane => -90 <= r <= 90
  | longitude_plane => 0 <= r <= 360
  | mu_plane | mu0_plane | cos_phase_plane => -1 <= r <= 1
  end.

(** All data of [min, max] fit the range [lo, hi] after scaling. *)
Definition scaled_data_fit (lo hi : Z) (min max scale offset : R) : Prop :=
  IZR lo <= min * scale + offset /\ max * scale + offset <= IZR hi.

(** Angles [a] and [b] in degrees denote the same direction. *)
Definition same_direction (a b : R) : Prop := exists n : Z, a = b + 360 * IZR n.

(** std::fmod on finite doubles: exact, smaller than the divisor, differing
    from the dividend by a multiple of the divisor; NaN for other dividends. *)
Definition fmod_spec (fmod : double -> double -> double) : Prop :=
  (forall x y : double, is_finite x = true -> is_finite y = true -> 0 < B2R y ->
     is_finite (fmod x y) = true /\ Rabs (B2R (fmod x y)) < B2R y /\
     exists n : Z, B2R x = B2R (fmod x y) + IZR n * B2R y) /\
  (forall x y : double, is_finite x = false -> is_nan (fmod x y) = true).

(** Calls of the setters of a factory: [true] for minimum, with the argument.
    The first admissible value of either kind. *)
Definition setter_call : Type := bool * double.
Fixpoint first_setting (which : bool) (calls : list setter_call) : option double :=
  match calls with
  | nil => None
  | cons (b, d) rest =>
      if Bool.eqb b which && negb (is_nan d) then Some d else first_setting which rest
  end%bool.
(** The factory after the calls; a call that throws leaves it alone. *)
Fixpoint after_calls (calls : list setter_call) (ex : extrema (ct F64)) : extrema (ct F64) :=
  match calls with
  | nil => ex
  | cons (b, d) rest =>
      after_calls rest (match (if b then factory_minimum ex d else factory_maximum ex d) with
                        | Ok ex' => ex' | _ => ex end)
  end.
