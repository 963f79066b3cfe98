(** lib/marc/OblateSpheroid.cpp.  The constructor is generic in the arithmetic;
    the geometry is over the reals (mode R). *)
From Coq Require Import List ZArith Reals Bool.
From Flocq Require Import Core.
From Verif Require Import Base Num LinAlg_Model Maths_Model.
Import ListNotations.

Section Construct.
Context {A : arith}.

(** The members of OblateSpheroid and its base BodyData,
    lib/marc/OblateSpheroid.h:146-168, lib/marc/BodyData.h.  [first_eccentricity_]
    is a function of the radii, see below. *)
Record spheroid := Spheroid { prograde : bool; eq_rad : A; pol_rad : A }.

(** [validate_radius], lib/marc/OblateSpheroid.cpp:23-30; [r <= 0] of a number
    that is not NaN is the negation of [0 < r]. *)
Definition validate_radius (r : A) : outcome A :=
  if a_isnan A r || negb (a_lt A (a_of_Z A 0) r) then Throw invalid_argument else Ok r.

(** The constructor, lib/marc/OblateSpheroid.cpp:33-45. *)
Definition spheroid_new (pro : bool) (eq pol : A) : outcome spheroid :=
  bind (validate_radius eq) (fun e =>
  bind (validate_radius pol) (fun p =>
  if a_lt A eq pol then Throw invalid_argument else Ok (Spheroid pro e p))).
End Construct.
Arguments spheroid : clear implicits.

Open Scope R_scope.

(** std::hypot. *)
Definition hypot (x y : R) : R := sqrt (x * x + y * y).

(** std::atan2; the value for (0, 0) depends on the signs of the zeros in the
    code and is 0 here. *)
Definition atan2 (y x : R) : R :=
  if Rlt_bool 0 x then atan (y / x)
  else if Rlt_bool x 0 then (if Rle_bool 0 y then atan (y / x) + PI else atan (y / x) - PI)
  else if Rlt_bool 0 y then PI / 2 else if Rlt_bool y 0 then - (PI / 2) else 0.

(** [std::atan(k * std::tan(lat))] for k > 0.  The pole is not a double; at the
    exact pole the infinite tangent is taken, giving +-pi/2. *)
Definition atan_ktan (k lat : R) : R :=
  if Req_bool (cos lat) 0 then (if Rlt_bool 0 (sin lat) then PI / 2 else - (PI / 2))
  else atan (k * tan lat).

Section Geometry.
(** The equatorial and polar radii. *)
Context (eq pol : R).

(** [flattening] and [first_eccentricity], lib/marc/OblateSpheroid.h:70-80,
    lib/marc/OblateSpheroid.cpp:39. *)
Definition flattening : R := (eq - pol) / eq.
Definition first_eccentricity : R := sqrt (1 - (pol / eq) ^ 2).

(** [centric_radius], lib/marc/OblateSpheroid.cpp:47-90. *)
Definition centric_radius (lat : R) : R := 1 / hypot (cos lat / eq) (sin lat / pol).

(** [centric_latitude], [graphic_latitude],
    lib/marc/OblateSpheroid.cpp:92-120. *)
Definition centric_latitude (latg : R) : R := atan_ktan ((pol / eq) ^ 2) latg.
Definition graphic_latitude (lat : R) : R := atan_ktan ((eq / pol) ^ 2) lat.

(** [mu], lib/marc/OblateSpheroid.cpp:122-148. *)
Definition mu (sub_observ_lat sub_observ_lon lat lon range : R) : R :=
  let latg := graphic_latitude lat in
  let ellipse_radius := centric_radius lat in
  ((range * sin sub_observ_lat * sin latg - ellipse_radius * cos (lat - latg))
   + range * cos sub_observ_lat * cos latg * cos (sub_observ_lon - lon)) /
  sqrt (range * range + ellipse_radius * ellipse_radius -
        2 * range * ellipse_radius *
        (sin sub_observ_lat * sin lat + cos sub_observ_lat * cos lat * cos (sub_observ_lon - lon))).

(** [mu0], lib/marc/OblateSpheroid.cpp:150-166. *)
Definition mu0 (sub_solar_lat sub_solar_lon lat lon : R) : R :=
  let latg := graphic_latitude lat in
  sin sub_solar_lat * sin latg + cos sub_solar_lat * cos latg * cos (sub_solar_lon - lon).

(** [cos_phase], lib/marc/OblateSpheroid.cpp:168-200. *)
Definition cos_phase (sub_observ_lat sub_observ_lon sub_solar_lat sub_solar_lon lat lon range : R) : R :=
  let ellipse_radius := centric_radius lat in
  (range * (cos sub_observ_lat * cos sub_solar_lat * cos (sub_observ_lon - sub_solar_lon)
            + sin sub_observ_lat * sin sub_solar_lat) -
   ellipse_radius * (cos lat * cos sub_solar_lat * cos (lon - sub_solar_lon)
                     + sin lat * sin sub_solar_lat)) /
  sqrt (range * range + ellipse_radius * ellipse_radius
        - 2 * range * ellipse_radius *
        (sin sub_observ_lat * sin lat + cos sub_observ_lat * cos lat * cos (sub_observ_lon - lon))).

(** [M] and [N], lib/marc/OblateSpheroid.cpp:202-223. *)
Definition M (lat : R) : R :=
  let fe2 := first_eccentricity ^ 2 in
  let latg := graphic_latitude lat in
  let sin2_latg := sin latg ^ 2 in
  eq * (1 - fe2) / Rpower (1 - fe2 * sin2_latg) (3 / 2).
Definition N (lat : R) : R :=
  let latg := graphic_latitude lat in
  eq / sqrt (1 - first_eccentricity ^ 2 * sin latg ^ 2).

(** Return value and out-parameters of [ellipse_intersection]: -1, 1, or 0 with
    latitude and longitude. *)
Inductive hit := bad_input | miss | found (lat : num) (lon : R).

(** [std::atan(z / std::hypot(x, y))]: +-pi/2 for a quotient z/0 with z <> 0. *)
Definition atan_over (z h : R) : num :=
  if Req_bool h 0 then
    if Rlt_bool 0 z then Num (PI / 2) else if Rlt_bool z 0 then Num (- (PI / 2)) else NaN
  else Num (atan (z / h)).

(** [ellipse_intersection], lib/marc/OblateSpheroid.cpp:225-319.  The loop over
    the three axes is written out.  A failing [assert] is [UB ub_assert]. *)
Definition ellipse_intersection (vec dvec : vector) : outcome hit :=
  let m1 i s := vget dvec i / s in
  let m2 i s := vget vec i / s in
  let a := 0 + m1 0%nat eq * m1 0%nat eq + m1 1%nat eq * m1 1%nat eq + m1 2%nat pol * m1 2%nat pol in
  let b := 0 + 2 * m1 0%nat eq * m2 0%nat eq + 2 * m1 1%nat eq * m2 1%nat eq + 2 * m1 2%nat pol * m2 2%nat pol in
  let c := -1 + m2 0%nat eq * m2 0%nat eq + m2 1%nat eq * m2 1%nat eq + m2 2%nat pol * m2 2%nat pol in
  if Rle_bool a 0 then Ok bad_input
  else match quadratic_roots a b c with
       | None => Ok miss
       | Some (k1, k2) =>
           if nlt k2 k1 then
             match k2 with
             | Num k =>
                 let x := vget vec 0 + k * vget dvec 0 in
                 let y := vget vec 1 + k * vget dvec 1 in
                 let z := vget vec 2 + k * vget dvec 2 in
                 Ok (found (atan_over z (hypot x y)) (atan2 x (- y)))
             | NaN => UB ub_assert
             end
           else UB ub_assert
       end.
End Geometry.
