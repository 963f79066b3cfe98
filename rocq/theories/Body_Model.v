(** The geometry of OblateSpheroid.cpp in doubles (Spheroid_Model has it over the
    reals).  Contraction of products and sums is left out. *)
From Coq Require Import ZArith.
From Flocq Require Import Core BinarySingleNaN.
From Verif Require Import Base Flt Num Spheroid_Model Proj_Model.

#[local] Existing Instance prec53.
#[local] Existing Instance emax53.

Section Body.
Context (L : libm ar_double) (arctan : double -> double) (eq pol : double).
Local Notation Zc := double_of_Z.
Local Notation "x + y" := (Bplus mode_NE x y).
Local Notation "x - y" := (Bminus mode_NE x y).
Local Notation "x * y" := (Bmult mode_NE x y).
Local Notation "x / y" := (Bdiv mode_NE x y).
Definition dsin (x : double) : double := l_sin L x.
Definition dcos (x : double) : double := l_cos L x.
Definition dtan (x : double) : double := l_tan L x.
Definition dpow (x y : double) : double := l_pow L x y.
Definition dhypot (x y : double) : double := l_hypot L x y.

(** [centric_radius], lib/marc/OblateSpheroid.cpp:47-90. *)
Definition double_radius (lat : double) : double := Zc 1 / dhypot (dcos lat / eq) (dsin lat / pol).

(** [centric_latitude], [graphic_latitude], lib/marc/OblateSpheroid.cpp:92-120. *)
Definition double_centric (latg : double) : double := arctan (dpow (pol / eq) (Zc 2) * dtan latg).
Definition double_graphic (lat : double) : double := arctan (dpow (eq / pol) (Zc 2) * dtan lat).

(** [mu], lib/marc/OblateSpheroid.cpp:122-148. *)
Definition double_mu (sub_observ_lat sub_observ_lon lat lon range : double) : double :=
  let latg := double_graphic lat in
  let r := double_radius lat in
  ((range * dsin sub_observ_lat * dsin latg - r * dcos (lat - latg))
   + range * dcos sub_observ_lat * dcos latg * dcos (sub_observ_lon - lon)) /
  Bsqrt mode_NE (range * range + r * r -
    Zc 2 * range * r * (dsin sub_observ_lat * dsin lat + dcos sub_observ_lat * dcos lat * dcos (sub_observ_lon - lon))).

(** [mu0], lib/marc/OblateSpheroid.cpp:150-166. *)
Definition double_mu0 (sub_solar_lat sub_solar_lon lat lon : double) : double :=
  let latg := double_graphic lat in
  dsin sub_solar_lat * dsin latg + dcos sub_solar_lat * dcos latg * dcos (sub_solar_lon - lon).

(** [cos_phase], lib/marc/OblateSpheroid.cpp:168-200. *)
Definition double_cos_phase (sub_observ_lat sub_observ_lon sub_solar_lat sub_solar_lon lat lon range : double) : double :=
  let r := double_radius lat in
  (range * (dcos sub_observ_lat * dcos sub_solar_lat * dcos (sub_observ_lon - sub_solar_lon)
            + dsin sub_observ_lat * dsin sub_solar_lat) -
   r * (dcos lat * dcos sub_solar_lat * dcos (lon - sub_solar_lon) + dsin lat * dsin sub_solar_lat)) /
  Bsqrt mode_NE (range * range + r * r -
    Zc 2 * range * r * (dsin sub_observ_lat * dsin lat + dcos sub_observ_lat * dcos lat * dcos (sub_observ_lon - lon))).
End Body.
