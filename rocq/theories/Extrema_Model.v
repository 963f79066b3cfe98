(** Map data types ([lib/marc/Map_traits.h]) and [MaRC::extrema]
    ([lib/marc/extrema.h]). *)
From Coq Require Import List ZArith Bool.
From Flocq Require Import Core BinarySingleNaN.
From Verif Require Import Base Flt.
Import ListNotations.
Open Scope Z_scope.

(** A C++ arithmetic type as far as the code uses it: its comparison
    operators, [std::numeric_limits] constants, conversions from and to
    [double], and the [Map_traits] functions. *)
Record ctype := CType {
  carrier :> Type;
  c_lt : carrier -> carrier -> bool;        (* operator< *)
  c_le : carrier -> carrier -> bool;        (* operator<= *)
  c_integral : bool;                        (* std::is_integral *)
  c_lo : Z;  c_hi : Z;                      (* range, integral types only *)
  c_lowest : carrier;                       (* numeric_limits<T>::lowest() *)
  c_max : carrier;                          (* numeric_limits<T>::max() *)
  c_of_Z : Z -> carrier;                    (* static_cast<T>(intmax_t) *)
  c_to_double : carrier -> double;          (* conversion to double *)
  c_of_double : double -> outcome carrier;  (* conversion from double *)
  c_empty : carrier;                        (* Map_traits<T>::empty_value() *)
  c_trait_min : double -> outcome carrier;  (* Map_traits<T>::minimum *)
  c_trait_max : double -> outcome carrier   (* Map_traits<T>::maximum *)
}.

(** [std::max(a, b)] and [std::min(a, b)] on doubles, in the argument order of
    lib/marc/Map_traits.h:85 and 109. *)
Definition std_max (a b : double) : double := if flt a b then b else a.
Definition std_min (a b : double) : double := if flt b a then b else a.

(** Integer map type with range [[lo, hi]].
    empty_value: lib/marc/Map_traits.h:52-55 (quiet_NaN() of an integer type is 0);
    minimum: lib/marc/Map_traits.h:80-86; maximum: lib/marc/Map_traits.h:104-110. *)
Definition int_ctype (lo hi : Z) : ctype :=
  CType Z Z.ltb Z.leb true lo hi lo hi (fun z => z) double_of_Z
    (int_of_double lo hi) 0
    (fun m => int_of_double lo hi (std_max m (double_of_Z lo)))
    (fun m => int_of_double lo hi (std_min m (double_of_Z hi))).

(** Largest finite [float]: (2^24 - 1) * 2^104. *)
Definition float_max : float :=
  binary_normalize 24 128 prec24 emax24 mode_NE (2 ^ 24 - 1) 104 false.
Definition float_lowest : float :=
  binary_normalize 24 128 prec24 emax24 mode_NE (- (2 ^ 24 - 1)) 104 false.

(** [float] maps, lib/marc/Map_traits.h:41-111 with T = float.  A [double]
    outside the range of [float] converts to infinity (IEC 60559). *)
Definition float_ctype : ctype :=
  CType float flt fle false 0 0 float_lowest float_max
    (fun z => float_of_double (double_of_Z z)) double_of_float
    (fun d => Ok (float_of_double d)) B754_nan
    (fun m => Ok (float_of_double (std_max m (double_of_float float_lowest))))
    (fun m => Ok (float_of_double (std_min m (double_of_float float_max)))).

Definition double_max : double := dlit (2 ^ 53 - 1) 971.
Definition double_lowest : double := dlit (- (2 ^ 53 - 1)) 971.

(** [double] maps, lib/marc/Map_traits.h:121-149 (no clipping). *)
Definition double_ctype : ctype :=
  CType double flt fle false 0 0 double_lowest double_max
    double_of_Z (fun d => d) (fun d => Ok d) B754_nan
    (fun m => Ok m) (fun m => Ok m).

(** The map data types MaRC instantiates (src/MapCommand.cpp:130-189,
    FITS BITPIX 8, 16, 32, 64, -32, -64). *)
Inductive mapty := U8 | I16 | I32 | I64 | F32 | F64.

Definition ct (t : mapty) : ctype :=
  match t with
  | U8 => int_ctype 0 255
  | I16 => int_ctype (- 2 ^ 15) (2 ^ 15 - 1)
  | I32 => int_ctype (- 2 ^ 31) (2 ^ 31 - 1)
  | I64 => int_ctype (- 2 ^ 63) (2 ^ 63 - 1)
  | F32 => float_ctype
  | F64 => double_ctype
  end.

(** ** extrema<T> *)

Record extrema (T : ctype) := Extrema { e_min : option T; e_max : option T }.
Arguments Extrema {T} e_min e_max.
Arguments e_min {T} e.
Arguments e_max {T} e.

Section Extrema.
Context {T : ctype}.

(** Default constructor, lib/marc/extrema.h:41; [reset], lib/marc/extrema.h:198-202. *)
Definition ex_empty : extrema T := Extrema None None.

(** [validate_extremum] and [validate_minimum]/[validate_maximum],
    lib/marc/extrema.h:235-276.  The argument is already converted to [double],
    the parameter type of [Map_traits<T>::minimum]; converting an integer
    never gives NaN, so testing after the conversion is the same test. *)
Definition validate_minimum (v : double) : outcome T :=
  if is_nan v then Throw invalid_argument else c_trait_min T v.
Definition validate_maximum (v : double) : outcome T :=
  if is_nan v then Throw invalid_argument else c_trait_max T v.

(** [is_valid], lib/marc/extrema.h:135-143. *)
Definition is_valid (e : extrema T) : bool :=
  match e_min e, e_max e with
  | Some a, Some b => c_le T a b
  | _, _ => false
  end.

(** Two-argument constructor, lib/marc/extrema.h:52-61. *)
Definition ex_make (lo hi : double) : outcome (extrema T) :=
  bind (validate_minimum lo) (fun a =>
  bind (validate_maximum hi) (fun b =>
  let e := Extrema (Some a) (Some b) in
  if is_valid e then Ok e else Throw invalid_argument)).

(** Setters, lib/marc/extrema.h:115-116 and 121-123. *)
Definition ex_set_min (e : extrema T) (m : double) : outcome (extrema T) :=
  bind (validate_minimum m) (fun a => Ok (Extrema (Some a) (e_max e))).
Definition ex_set_max (e : extrema T) (m : double) : outcome (extrema T) :=
  bind (validate_maximum m) (fun a => Ok (Extrema (e_min e) (Some a))).

(** [in_range(double)], lib/marc/extrema.h:129-132, with the comparison rules
    of [std::optional]: a value is [>=] an empty optional and is not [<=] one.
    The stored bound is converted to [double] for the comparison. *)
Definition in_range (e : extrema T) (v : double) : bool :=
  (match e_min e with Some a => fle (c_to_double T a) v | None => true end) &&
  (match e_max e with Some b => fle v (c_to_double T b) | None => false end).

(** [update(T datum)], lib/marc/extrema.h:155-166. *)
Definition ex_update (e : extrema T) (d : T) : extrema T :=
  let mn := match e_min e with
            | Some a => if c_lt T d a then Some d else Some a
            | None => Some d
            end in
  let mx := match e_max e with
            | Some b => if c_lt T b d then Some d else Some b
            | None => Some d
            end in
  Extrema mn mx.

(** [update(extrema const &)], lib/marc/extrema.h:179-190: [x < nullopt] is
    false, [x > nullopt] is true. *)
Definition ex_merge (a b : extrema T) : extrema T :=
  let mn := match e_min b with
            | Some y => match e_min a with
                        | Some x => if c_lt T y x then Some y else Some x
                        | None => None
                        end
            | None => e_min a
            end in
  let mx := match e_max b with
            | Some y => match e_max a with
                        | Some x => if c_lt T x y then Some y else Some x
                        | None => Some y
                        end
            | None => e_max a
            end in
  Extrema mn mx.

End Extrema.

(** Converting copy constructor from extrema<double>, lib/marc/extrema.h:73-85;
    for T = double the implicit copy constructor of line 64 is used instead. *)
Definition ex_convert (t : mapty) (e : extrema (ct F64)) : outcome (extrema (ct t)) :=
  match t as t' return outcome (extrema (ct t')) with
  | F64 => Ok e
  | t' =>
      bind (match e_min e with
            | Some m => bind (validate_minimum (T := ct t') m) (fun a => Ok (Some a))
            | None => Ok None
            end) (fun mn =>
      bind (match e_max e with
            | Some m => bind (validate_maximum (T := ct t') m) (fun a => Ok (Some a))
            | None => Ok None
            end) (fun mx =>
      Ok (Extrema mn mx)))
  end.
