(** lib/marc/Orthographic.{h,cpp}.  Generic in the arithmetic, the functions of
    <cmath> and the body, as Proj_Model. *)
From Coq Require Import List ZArith Reals Bool.
From Flocq Require Import Core BinarySingleNaN.
From Verif Require Import Base Flt Num Maths_Model Spheroid_Model Proj_Model.
Import ListNotations.
Open Scope Z_scope.

Section Orthographic.
Context {A : arith} (L : libm A).
(** std::acos, a NaN, the conversion to [ssize_t] and MaRC::quadratic_roots. *)
Context (arccos : A -> A) (nan : A) (to_ssize : A -> outcome Z)
        (roots : A -> A -> A -> option (A * A)).
(** The body: sense of rotation, radii, [centric_radius]. *)
Context (prograde : bool) (eq_rad pol_rad : A) (centric_radius : A -> A).
Local Notation Zc := (a_of_Z A).
Local Notation "x + y" := (a_add A x y).
Local Notation "x - y" := (a_sub A x y).
Local Notation "x * y" := (a_mul A x y).
Local Notation "x / y" := (a_div A x y).
Local Notation "x < y" := (a_lt A x y).
Local Notation "x <= y" := (a_le A x y).
Local Notation half := (half (A := A)).
Local Notation neg := (neg (A := A)).

(** [OrthographicCenter] with its [GeometryType], lib/marc/Orthographic.h:35,
    201-232. *)
Inductive center := default_center | center_given (sample line : A) | lat_lon_given (lat lon : A).

(** The members, lib/marc/Orthographic.h:157-189; [o_sc], [o_lc] are kilometres
    when [o_latc], [o_lonc] are numbers, pixels otherwise. *)
Record ortho := Ortho {
  o_lat : A; o_lon : A; o_pa : A; o_kpp : A; o_sc : A; o_lc : A; o_latc : A; o_lonc : A; o_polar : bool }.

(** Orientation part of the constructor, lib/marc/Orthographic.cpp:161-199:
    latitude, longitude, position angle, polar_. *)
Definition orientation (sub_lat sub_lon pa : A) : outcome (A * A * A * bool) :=
  bind (validate_latitude (l_degree L) sub_lat) (fun lat =>
  bind (validate_longitude (l_degree L) sub_lon) (fun lon =>
  bind (validate_position_angle (l_degree L) pa) (fun pa =>
  let lon := if lon < Zc 0 then lon + l_2pi L else lon in
  if almost_equal (l_eps L) (l_tiny L) (a_abs A sub_lat) (Zc 90) 4 then
    let pa :=
      if ((Zc 0 < sub_lat) && prograde) || ((sub_lat < Zc 0) && negb prograde)
      then (if prograde then l_pi L else Zc 0)
      else (if prograde then Zc 0 else l_pi L) in
    let lat := if Zc 0 < sub_lat then l_pi2 L else neg (l_pi2 L) in
    Ok (lat, Zc 0, pa, true)
  else Ok (lat, lon, pa, false)))).

(** Longitude limits used by the visibility check of the constructor and the new
    value of lon_at_center_, lib/marc/Orthographic.cpp:222-256. *)
Definition visible_longitude (lat lon latc lonc : A) (polar : bool) : outcome A :=
  let cosine := l_pow L (eq_rad / pol_rad) (Zc 2) * l_tan L latc * l_tan L lat in
  if cosine < Zc (-1) then Throw invalid_argument else
  let span := if negb polar && (a_abs A cosine <= Zc 1) then a_abs A (arccos (neg cosine)) else l_pi L in
  let lower := lon - span in
  let upper := lon + span in
  let lonc := if lonc < lower then lonc + l_2pi L else if upper < lonc then lonc - l_2pi L else lonc in
  if (lonc < lower) || (upper < lonc) then Throw invalid_argument else Ok lonc.

(** Image plane coordinates (km) of the surface point at [latc], [lonc],
    lib/marc/Orthographic.cpp:258-289. *)
Definition center_km (lat lon pa latc lonc : A) : A * A :=
  let shift := lon - lonc in
  let radius := centric_radius latc in
  let pos0 := radius * l_cos L latc * l_sin L shift in
  let pos1 := neg radius * l_cos L latc * l_cos L shift in
  let pos2 := radius * l_sin L latc in
  let pos0 := if prograde then pos0 else neg pos0 in
  (pos0 * l_cos L pa + pos1 * l_sin L pa * l_sin L (neg lat) - pos2 * l_sin L pa * l_cos L (neg lat),
   pos0 * l_sin L pa - pos1 * l_sin L (neg lat) * l_cos L pa + pos2 * l_cos L (neg lat) * l_cos L pa).

(** Constructor, lib/marc/Orthographic.cpp:152-291. *)
Definition ortho_new (sub_lat sub_lon pa km_per_pixel : A) (c : center) : outcome ortho :=
  bind (orientation sub_lat sub_lon pa) (fun '(lat, lon, pa, polar) =>
  let kpp := if Zc 0 < km_per_pixel then km_per_pixel else Zc (-1) in
  match c with
  | default_center => Ok (Ortho lat lon pa kpp nan nan nan nan polar)
  | center_given s l => Ok (Ortho lat lon pa kpp s l nan nan polar)
  | lat_lon_given lat_c lon_c =>
      bind (validate_latitude (l_degree L) lat_c) (fun latc =>
      bind (validate_longitude (l_degree L) lon_c) (fun lonc =>
      bind (visible_longitude lat lon latc lonc polar) (fun lonc =>
      let (sc, lc) := center_km lat lon pa latc lonc in
      Ok (Ortho lat lon pa kpp sc lc latc lonc polar))))
  end).

Context (p : ortho).

(** [map_parameters], lib/marc/Orthographic.cpp:597-654: kilometres per pixel,
    sample and line of the body center.  The literal 0.9 is written 9/10. *)
Definition map_parameters (samples lines : Z) : A * A * A :=
  let kpp :=
    if o_kpp p <= Zc 0
    then Zc 2 * (if eq_rad < pol_rad then pol_rad else eq_rad)
         / ((Zc 9 / Zc 10) * Zc (Z.min samples lines))
    else o_kpp p in
  if negb (a_isnan A (o_latc p)) && negb (a_isnan A (o_lonc p)) then
    (kpp, Zc samples / Zc 2 - o_sc p / kpp, Zc lines / Zc 2 - o_lc p / kpp)
  else if a_isnan A (o_sc p) || a_isnan A (o_lc p) then
    (kpp, Zc samples / Zc 2, Zc lines / Zc 2)
  else (kpp, o_sc p, o_lc p).

(** The point plotted for the position [x], [z] of the image plane (km), body of
    the inner loop of plot_map, lib/marc/Orthographic.cpp:309-386.  Products with
    the entries 0 and 1 of the rotation matrices are left out. *)
Definition ortho_point (x z : A) : option (A * A) :=
  let a2 := eq_rad * eq_rad in
  let c2 := pol_rad * pol_rad in
  let diff := (eq_rad - pol_rad) * (eq_rad + pol_rad) in
  let CA := diff * l_pow L (l_sin L (o_lat p)) (Zc 2) + c2 in
  let cosY := l_cos L (neg (o_pa p)) in
  let sinY := l_sin L (neg (o_pa p)) in
  let (x, zz) := if o_polar p then (x, z) else (x * cosY - z * sinY, x * sinY + z * cosY) in
  let CB := diff * zz * l_sin L (Zc 2 * o_lat p) in
  let CC := a2 * zz * zz + c2 * x * x - a2 * c2
            - diff * zz * zz * l_pow L (l_sin L (o_lat p)) (Zc 2) in
  match roots CA CB CC with
  | None => None
  | Some (first, second) =>
      let y := if second < first then second else first in
      let rx := x in
      let ry := y * l_cos L (o_lat p) + zz * l_sin L (o_lat p) in
      let rz := zz * l_cos L (o_lat p) - y * l_sin L (o_lat p) in
      let (x, y) := if o_polar p then (rx * cosY + ry * sinY, ry * cosY - rx * sinY) else (rx, ry) in
      let lat := l_atan2 L rz (l_hypot L x y) in
      let t := l_atan2 L (neg x) y in
      let lon := if prograde then o_lon p - t + l_pi L else o_lon p + t - l_pi L in
      Some (lat, lon)
  end.

(** [plot_map], lib/marc/Orthographic.cpp:299-405. *)
Definition ortho_plot_map (samples lines : Z) : list ((A * A) * Z) * outcome Z :=
  let '(kpp, sc, lc) := map_parameters samples lines in
  plot_loops samples lines (fun k =>
    let z := (Zc k + half - lc) * kpp in
    Ok (fun i => Ok (ortho_point ((Zc i + half - sc) * kpp) z))).

(** ** Grid *)

(** Longitude limits of the visible part of a latitude circle,
    lib/marc/Orthographic.cpp:454-471 and 536-556; [None] is [continue]. *)
Definition longitude_bounds (nn : A) : option (A * A) :=
  let cosine := eq_rad * eq_rad / pol_rad / pol_rad * l_tan L nn * l_tan L (o_lat p) in
  if (Zc (-1) <= cosine) && (cosine <= Zc 1) then
    let w := a_abs A (arccos (neg cosine)) in Some (o_lon p - w, o_lon p + w)
  else if Zc 1 < cosine then Some (neg (l_pi L), l_pi L) else None.

(** Drawing the point at latitude [nn] and angle [mm],
    lib/marc/Orthographic.cpp:491-511 and 569-591. *)
Definition ortho_dot (samples lines : Z) (kpp sc lc : A) (nn mm : A) (grid : list Z) : outcome (list Z) :=
  let radius := centric_radius nn in
  let X := radius * l_cos L nn * l_sin L mm in
  let Y := neg radius * l_cos L nn * l_cos L mm in
  let Z_ := radius * l_sin L nn in
  let cosY := l_cos L (neg (o_pa p)) in let sinY := l_sin L (neg (o_pa p)) in
  let cosX := l_cos L (o_lat p) in let sinX := l_sin L (o_lat p) in
  let cx := cosY * X + sinY * sinX * Y + neg sinY * cosX * Z_ in
  let cz := sinY * X + cosY * neg sinX * Y + cosY * cosX * Z_ in
  let x := cx / kpp in
  let z := cz / kpp in
  bind (to_ssize (l_round L (sc - x))) (fun i =>
  bind (to_ssize (l_round L (lc + z))) (fun k =>
  if (0 <=? i)%Z && (i <? samples)%Z && (0 <=? k)%Z && (k <? lines)%Z
  then put grid (wrap (wrap (k * samples) + i))%Z else Ok grid)).

(** The angle drawn for longitude [m], or nothing when it is not visible: the
    parts shared by both loops, lib/marc/Orthographic.cpp:480-485, 558-563. *)
Definition drawn_longitude (lo hi mm : A) : option A :=
  let mm := if mm < lo then mm + l_2pi L else if hi < mm then mm - l_2pi L else mm in
  if (lo <= mm) && (mm <= hi) then Some mm else None.

(** [plot_lat_lines], lib/marc/Orthographic.cpp:428-515. *)
Definition lat_line (samples lines : Z) (kpp sc lc : A) (n : A) (grid : list Z) : outcome (list Z) :=
  let nn := n * l_degree L in
  let bounds :=
    if (n <= Zc 0) && (Zc 0 <= n) && almost_equal (l_eps L) (l_tiny L) (a_abs A (o_lat p)) (l_pi2 L) 8
    then Some (neg (l_pi L), l_pi L) else longitude_bounds nn in
  match bounds with
  | None => Ok grid
  | Some (lo, hi) =>
      dots (Z.to_nat 2000) (fun m g =>
        match drawn_longitude lo hi (Zc m / Zc 2000 * l_degree L * Zc 360) with
        | None => Ok g
        | Some mm =>
            ortho_dot samples lines kpp sc lc nn
              (if prograde then o_lon p + l_pi L - mm else mm - (l_pi L - o_lon p)) g
        end) 0 grid
  end.

(** [plot_lon_lines], lib/marc/Orthographic.cpp:517-595. *)
Definition lon_line (samples lines : Z) (kpp sc lc : A) (m : A) (grid : list Z) : outcome (list Z) :=
  let mm := m * l_degree L in
  dots (Z.to_nat 1000) (fun n g =>
    let nn := (Zc n / Zc 1000 * Zc 180 - Zc 90) * l_degree L in
    match longitude_bounds nn with
    | None => Ok g
    | Some (lo, hi) =>
        match drawn_longitude lo hi mm with
        | None => Ok g
        | Some mm2 =>
            ortho_dot samples lines kpp sc lc nn
              (if prograde then o_lon p + l_pi L - mm2 else mm2 - (l_pi L + o_lon p)) g
        end
    end) 0 grid.

(** [plot_grid], lib/marc/Orthographic.cpp:407-426. *)
Definition ortho_plot_grid (fuel : nat) (samples lines : Z) (lat_interval lon_interval : A)
    (grid : list Z) : option (outcome (list Z)) :=
  let '(kpp, sc, lc) := map_parameters samples lines in
  then_loop
    (for_loop fuel (fun n => n <= Zc 90) (fun n => n + lat_interval)
       (lat_line samples lines kpp sc lc) (Zc (-90)) grid)
    (for_loop fuel (fun m => m <= Zc 360) (fun m => m + lon_interval)
       (lon_line samples lines kpp sc lc) (Zc 0 + lon_interval)).
End Orthographic.
Arguments center : clear implicits.
Arguments ortho : clear implicits.

(** ** Instances *)
Open Scope R_scope.

(** quadratic_roots with a NaN coefficient stores NaN; the calls of plot_map
    never have one when the members are numbers. *)
Definition num_roots (a b c : ar_num) : option (ar_num * ar_num) :=
  match a, b, c with
  | Num a, Num b, Num c => quadratic_roots a b c
  | _, _, _ => Some (NaN : ar_num, NaN : ar_num)
  end.
Definition num_acos : ar_num -> ar_num :=
  num1 (fun r => if Rle_bool (-1) r && Rle_bool r 1 then Num (acos r) else NaN).
(** [static_cast<ssize_t>]. *)
Definition num_ssize (x : ar_num) : outcome Z :=
  match x with
  | NaN => UB ub_conversion
  | Num r => let z := Ztrunc r in
             if ((- 2 ^ 63 <=? z) && (z <? 2 ^ 63))%Z then Ok z else UB ub_conversion
  end.
Definition double_ssize : ar_double -> outcome Z := int_of_double (- 2 ^ 63) (2 ^ 63 - 1).
