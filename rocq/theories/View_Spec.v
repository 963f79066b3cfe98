(** Specification vocabulary for C41-C45 and C78-C82. *)
From Coq Require Import List ZArith Reals.
From Flocq Require Import Core BinarySingleNaN.
From Verif Require Import Base Flt Num LinAlg_Model Maths_Model Maths_Spec Spheroid_Model Spheroid_Spec View_Model.
Import ListNotations.
Open Scope R_scope.
#[local] Existing Instance prec53.
#[local] Existing Instance emax53.

(** ** Lens *)

(** Line and sample of the Galileo camera's optical axis. *)
Definition axis (summation : bool) : R := if summation then 200 else 400.
(** Distance of a position (line, sample) from the axis. *)
Definition axis_distance (summation : bool) (p : R * R) : R :=
  sqrt ((fst p - axis summation) ^ 2 + (snd p - axis summation) ^ 2).

(** ** Views *)

(** The surface point at planetocentric latitude [lat] and longitude [lon] in
    the body frame of a view: z towards north, the observer in the half plane
    x = 0, y < 0.  Longitudes of prograde bodies increase westwards. *)
Definition surface_point (v : view) (lat lon : R) : vector :=
  let l := if v_prograde v then v_sub_lon v - lon else lon - v_sub_lon v in
  let r := centric_radius (v_eq v) (v_pol v) lat in
  [r * cos lat * sin l; - (r * cos lat * cos l); r * sin lat].
Definition observer (v : view) : vector :=
  [0; - (v_range v * cos (v_sub_lat v)); v_range v * sin (v_sub_lat v)].

(** Same angle modulo full circles. *)
Definition same_angle (a b : R) : Prop := exists k : Z, a = b + 2 * PI * IZR k.

(** [m] is a rotation or reflection (its inverse is its transpose). *)
Definition orthogonal (m : matrix) : Prop :=
  is_mat 3 3 m /\ m3mul m (transpose 3 3 m) = identity3 /\ m3mul (transpose 3 3 m) m = identity3.

(** Setup inputs with the body center given, as set by the setters: radii,
    latitude range, positive distances.  The optical axis defaults to the middle
    of the image; the resolution is given or follows from the focal length. *)
Record center_given (eq pol : R) (g : geom ar_num) (samples lines : Z)
    (sub_lat sub_lon range kpp os ol sc lc pa : R) : Prop := {
  cg_radii : 0 < pol <= eq;
  cg_sub : g sub_observ_lat_ = Num sub_lat;
  cg_sub_range : - (PI / 2) <= sub_lat <= PI / 2;
  cg_sub_lon : g sub_observ_lon_ = Num sub_lon;
  cg_range : g range_ = Num range;
  cg_range_pos : 0 < range;
  cg_pa : g position_angle_ = Num pa;
  cg_kpp : g km_per_pixel_ = Num kpp \/
           (g km_per_pixel_ = NaN /\ exists f s, g focal_length_ = Num f /\ g scale_ = Num s /\ 0 < f /\ 0 < s /\
              kpp * sqrt ((os - sc) ^ 2 + (f * s) ^ 2 + (ol - lc) ^ 2) = range);
  cg_kpp_pos : 0 < kpp;
  cg_os : g OA_s_ = Num os \/ (g OA_s_ = NaN /\ os = IZR samples / 2);
  cg_ol : g OA_l_ = Num ol \/ (g OA_l_ = NaN /\ ol = IZR lines / 2);
  cg_sc : g sample_center_ = Num sc;
  cg_lc : g line_center_ = Num lc;
  cg_no_axis : g lat_at_center_ = NaN \/ g lon_at_center_ = NaN }.

(** Distance (km) in the image plane between body center and optical axis. *)
Definition offset (kpp os ol sc lc : R) : R := kpp * sqrt ((os - sc) ^ 2 + (lc - ol) ^ 2).

(** Setup inputs with the latitude and longitude at the optical axis given; the
    observer is farther away than the equatorial radius. *)
Record axis_given (eq pol : R) (g : geom ar_num) (samples lines : Z)
    (sub_lat sub_lon range os ol lat_c lon_c pa : R) : Prop := {
  ag_radii : 0 < pol <= eq;
  ag_sub : g sub_observ_lat_ = Num sub_lat;
  ag_sub_range : - (PI / 2) <= sub_lat <= PI / 2;
  ag_sub_lon : g sub_observ_lon_ = Num sub_lon;
  ag_range : g range_ = Num range;
  ag_outside : eq < range;
  ag_pa : g position_angle_ = Num pa;
  ag_os : g OA_s_ = Num os \/ (g OA_s_ = NaN /\ os = IZR samples / 2);
  ag_ol : g OA_l_ = Num ol \/ (g OA_l_ = NaN /\ ol = IZR lines / 2);
  ag_lat : g lat_at_center_ = Num lat_c;
  ag_lat_range : - (PI / 2) <= lat_c <= PI / 2;
  ag_lon : g lon_at_center_ = Num lon_c;
  ag_resolution : (exists kpp, g km_per_pixel_ = Num kpp /\ 0 < kpp) \/
                  (g km_per_pixel_ = NaN /\ exists f s, g focal_length_ = Num f /\ g scale_ = Num s /\ 0 < f /\ 0 < s) }.

(** Direction of the body's north pole in the image: components to the right and
    up. *)
Definition north_in_image (v : view) : R * R :=
  let w := m3v (v_b2o v) [0; 0; 1] in (vget w 0, vget w 2).
(** North is at position angle [pa], counterclockwise from up. *)
Definition north_at (v : view) (pa : R) : Prop :=
  exists c, 0 <= c /\ north_in_image v = (- (c * sin pa), c * cos pa).

(** The same view with another lens. *)
Definition with_correction (v : view) (c : correction) : view :=
  View (v_prograde v) (v_eq v) (v_pol v) (v_sub_lat v) (v_sub_lon v) (v_range v) (v_range_b v) (v_o2b v) (v_b2o v)
    (v_normal_range v) (v_km_per_pixel v) (v_focal_length_pixels v) (v_OA_s v) (v_OA_l v) (v_sample_center v)
    (v_line_center v) (v_mu_limit v) (v_sub_solar_lat v) (v_sub_solar_lon v) (v_use_terminator v) c.

(** ** Setters *)

(** The call succeeded: [m] holds [x], every other member is unchanged. *)
Definition stored {A : arith} (m : member) (x : A) (g : geom A) (r : result A) : Prop :=
  snd r = None /\ fst r m = x /\ forall k, k <> m -> fst r k = g k.
(** The call threw and changed nothing. *)
Definition rejected {A : arith} (e : exn) (g : geom A) (r : result A) : Prop := r = (g, Some e).

(** A number (not NaN) of at most [limit] degrees either way. *)
Definition angle_ok (limit : R) (x : double) : Prop := is_nan x = false /\ - limit <= fval x <= limit.
(** The angle itself, or one circle more if it is negative. *)
Definition positive_equivalent (twopi x : double) : double :=
  if flt x (double_of_Z 0) then Bplus mode_NE x twopi else x.
