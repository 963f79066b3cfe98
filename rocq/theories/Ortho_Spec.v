(** Specification vocabulary for C52, C85, C86 and the orthographic grid. *)
From Coq Require Import List ZArith Reals.
From Verif Require Import Base Num LinAlg_Model Maths_Spec Spheroid_Spec Proj_Spec Ortho_Model.
Import ListNotations.
Open Scope R_scope.

(** Right-handed (eastward) longitude: longitudes of prograde bodies increase
    westwards. *)
Definition east (prograde : bool) (lon : R) : R := if prograde then - lon else lon.

(** [P] lies at planetocentric latitude [lat] and longitude [lon]. *)
Definition has_position (prograde : bool) (P : vector) (lat lon : R) : Prop :=
  exists r, 0 < r /\ P = spherical r lat (east prograde lon).

(** Directions at infinity seen by an observer above latitude [phi] and longitude
    [lam]: towards the observer, to the right and north on the sky. *)
Definition toward (prograde : bool) (phi lam : R) : vector := spherical 1 phi (east prograde lam).
Definition rightward (prograde : bool) (lam : R) : vector :=
  [- sin (east prograde lam); cos (east prograde lam); 0].
Definition northward (prograde : bool) (phi lam : R) : vector :=
  [- sin phi * cos (east prograde lam); - sin phi * sin (east prograde lam); cos phi].

(** Orthographic projection: image coordinates x (right) and z (up) when north
    points [pa] counter-clockwise from up. *)
Definition projects_to (prograde : bool) (phi lam pa : R) (P : vector) (x z : R) : Prop :=
  let r := inner 3 P (rightward prograde lam) in
  let n := inner 3 P (northward prograde phi lam) in
  x = r * cos pa - n * sin pa /\ z = r * sin pa + n * cos pa.

(** The outward normal at [P] does not point away from the observer. *)
Definition facing (eq pol : R) (prograde : bool) (phi lam : R) (P : vector) : Prop :=
  0 <= inner 3 (gradient eq pol P) (toward prograde phi lam).

Definition radians (d : R) : R := d * (PI / 180).
Definition same_direction (a b : R) : Prop := exists k : Z, a = b + 2 * PI * IZR k.

(** The viewing direction used for a request in degrees: the requested one, or
    for a (nearly) polar one the pole with longitude 0 at the bottom of northern
    and at the top of southern maps. *)
Definition oriented (sub_lat sub_lon angle phi lam pa : R) : Prop :=
  (phi = radians sub_lat /\ same_direction lam (radians sub_lon) /\ pa = radians angle /\ Rabs sub_lat < 90) \/
  (90 - Rabs sub_lat < 1 / 1000000000000 /\
   phi = (if Rlt_dec 0 sub_lat then PI / 2 else - (PI / 2)) /\ lam = 0 /\
   pa = (if Rlt_dec 0 sub_lat then PI else 0)).

(** Kilometres per pixel: the given number if positive, or such that the body
    fills nine tenths of the smaller side of the map. *)
Definition resolution (eq kpp : R) (samples lines : Z) (k : R) : Prop :=
  (0 < kpp /\ k = kpp) \/ (kpp <= 0 /\ 2 * eq = 9 / 10 * (k * IZR (Z.min samples lines))).

(** Position (km) in the image plane of the point (right, up) = ([s], [l]) pixels
    from the lower left corner when the body center is at ([sc], [lc]). *)
Definition km (k c s : R) : R := (s - c) * k.

(** Where the body center lies: the middle of the map, the given pixel position,
    or such that the given surface point is in the middle of the map. *)
Definition centered (eq pol : R) (prograde : bool) (phi lam pa k : R) (samples lines : Z)
    (c : center ar_num) (sc lc : R) : Prop :=
  match c with
  | lat_lon_given (Num lat) (Num lon) => exists P,
      on_spheroid eq pol P /\ has_position prograde P (radians lat) (radians lon) /\
      projects_to prograde phi lam pa P (km k sc (IZR samples / 2)) (km k lc (IZR lines / 2))
  | center_given (Num s) (Num l) => sc = s /\ lc = l
  | _ => sc = IZR samples / 2 /\ lc = IZR lines / 2
  end.

(** A request (degrees, kilometres per pixel, center) and the view it denotes. *)
Record view_of (eq pol : R) (prograde : bool) (sub_lat sub_lon angle : R) (kpp : R) (c : center ar_num)
    (samples lines : Z) (phi lam pa k sc lc : R) : Prop := {
  vo_oriented : oriented sub_lat sub_lon angle phi lam pa;
  vo_latitude : - (PI / 2) <= phi <= PI / 2;
  vo_resolution : resolution eq kpp samples lines k;
  vo_positive : 0 < k;
  vo_centered : centered eq pol prograde phi lam pa k samples lines c sc lc }.

(** ** Grid *)
(** Latitudes and longitudes of the grid lines and of the points they consist of,
    in degrees. *)
Definition latitude_line (interval n : R) : Prop := exists j : Z, (0 <= j)%Z /\ n = -90 + IZR j * interval /\ n <= 90.
Definition longitude_line (interval m : R) : Prop := exists j : Z, (1 <= j)%Z /\ m = IZR j * interval /\ m <= 360.
Definition step (first range : R) (count : Z) (m : R) : Prop :=
  exists j : Z, (0 <= j < count)%Z /\ m = first + IZR j * range / IZR count.

(** The surface point at [lat], [lon] (degrees). *)
Definition surface_point (eq pol : R) (prograde : bool) (lat lon : R) (P : vector) : Prop :=
  is_vec 3 P /\ on_spheroid eq pol P /\ has_position prograde P (radians lat) (radians lon).

(** The cell nearest to the projection of [P]. *)
Definition shown (prograde : bool) (phi lam pa k sc lc : R) (P : vector) (j i : Z) : Prop :=
  exists x z, projects_to prograde phi lam pa P x z /\ nearest (sc + x / k) i /\ nearest (lc + z / k) j.

(** The surface point at [lat], [lon] is visible and the one at [lat], [lon'] is
    shown in cell [j], [i]; a correct grid has [lon'] = [lon]. *)
Definition marks_at (eq pol : R) (prograde : bool) (phi lam pa k sc lc lat lon lon' : R) (j i : Z) : Prop :=
  (exists P, surface_point eq pol prograde lat lon P /\ facing eq pol prograde phi lam P) /\
  (exists P, surface_point eq pol prograde lat lon' P /\ shown prograde phi lam pa k sc lc P j i).
