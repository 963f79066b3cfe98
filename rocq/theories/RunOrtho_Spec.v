(** Specification vocabulary for C116: the cells of orthographic maps. *)
From Coq Require Import List ZArith Reals Bool.
From Flocq Require Import Core BinarySingleNaN.
From Verif Require Import Base Flt Num LinAlg_Model Maths_Spec Spheroid_Model Spheroid_Spec Proj_Model Virtual_Model Ortho_Model Ortho_Spec.
Open Scope R_scope.

(** The double [x] is [r] but for [e]. *)
Definition nearly (x : double) (r e : R) : Prop := is_finite x = true /\ Rabs (B2R x - r) <= e.

(** How close the functions of <cmath> are to the real ones. *)
Record close_library (L : libm ar_double) : Prop := CloseLibrary {
  cl_pi : l_pi L = d_pi;
  cl_sin : forall x : double, is_finite x = true -> Rabs (B2R x) <= 20 ->
    nearly (l_sin L x) (sin (B2R x)) 1e-15 /\ (B2R x = 0 -> B2R (l_sin L x : double) = 0);
  cl_cos : forall x : double, is_finite x = true -> Rabs (B2R x) <= 20 -> nearly (l_cos L x) (cos (B2R x)) 1e-15;
  cl_square : forall x : double, is_finite x = true -> Rabs (B2R x) <= 2 ->
    is_finite (l_pow L x (double_of_Z 2) : double) = true /\ (B2R x = 0 -> B2R (l_pow L x (double_of_Z 2) : double) = 0);
  cl_hypot : forall x y : double, is_finite x = true -> is_finite y = true -> Rabs (B2R x) <= 1e10 -> Rabs (B2R y) <= 1e10 ->
    nearly (l_hypot L x y) (hypot (B2R x) (B2R y)) (1e-15 * hypot (B2R x) (B2R y) + 1e-100) /\
    0 <= B2R (l_hypot L x y : double);
  cl_atan2 : forall y x : double, is_finite y = true -> is_finite x = true ->
    let v : double := l_atan2 L y x in
    is_finite v = true /\ Rabs (B2R v) <= 4 /\
    (B2R y <> 0 \/ 0 < B2R x -> Rabs (B2R v - atan2 (B2R y) (B2R x)) <= 1e-15 /\ (0 <= B2R x -> Rabs (B2R v) <= B2R d_pi2)) /\
    (B2R y = 0 -> B2R x < 0 -> Rabs (B2R v - PI) <= 1e-15 \/ Rabs (B2R v + PI) <= 1e-15) }.

(** The outline of the body on the sky, 1 on it, for views of a sphere or from
    above the equator. *)
Definition outline (eq pol pa x z : R) : R :=
  (x * cos pa + z * sin pa) ^ 2 / eq ^ 2 + (z * cos pa - x * sin pa) ^ 2 / pol ^ 2.

(** [lat] and [lon] (radians) are those of a point of the spheroid that is seen
    on the near side at [x], [z] of the image, but for a trillionth of the radius. *)
Definition is_seen (eq pol : R) (prograde : bool) (phi lam pa x z lat lon : R) : Prop :=
  - (PI / 2) <= lat <= PI / 2 /\
  exists P, on_spheroid eq pol P /\ has_position prograde P lat lon /\
    (exists px pz, projects_to prograde phi lam pa P px pz /\ Rabs (px - x) <= 1e-12 * eq /\ Rabs (pz - z) <= 1e-12 * eq) /\
    - (1e-12) * eq <= inner 3 P (toward prograde phi lam).

(** Views treated by C116: of a sphere, or from above the equator; not within a
    degree of the poles; the body center in the middle or at a given place. *)
Definition plain_center (c : center ar_double) : Prop :=
  match c with
  | default_center => True
  | center_given s l => is_finite (s : double) = true /\ is_finite (l : double) = true /\ Rabs (B2R (s : double)) <= 1e9 /\ Rabs (B2R (l : double)) <= 1e9
  | lat_lon_given _ _ => False
  end.
Record plain_view (eq pol sub_lat kpp : double) (c : center ar_double) : Prop := PlainView {
  pv_eq : is_finite eq = true;
  pv_pol : is_finite pol = true;
  pv_size : 1e-3 <= B2R pol /\ B2R pol <= B2R eq <= 2 * B2R pol /\ B2R eq <= 1e9;
  pv_lat : Rabs (B2R sub_lat) <= 89;
  pv_round : B2R pol = B2R eq \/ B2R sub_lat = 0;
  pv_kpp : is_finite kpp = true /\ (B2R kpp <= 0 \/ 1e-6 <= B2R kpp <= 1e9);
  pv_center : plain_center c }.

(** The direction and position angle of the request (degrees), but for rounding. *)
Definition sees (sub_lat sub_lon angle : double) (phi lam pa : R) : Prop :=
  Rabs (phi - radians (B2R sub_lat)) <= 1e-14 /\ (exists z : Z, Rabs (lam - (radians (B2R sub_lon) + 2 * PI * IZR z)) <= 1e-14) /\
  Rabs (pa - radians (B2R angle)) <= 1e-14.

(** Where the body center lies. *)
Definition center_at (c : center ar_double) (samples lines : Z) (sc lc : R) : Prop :=
  match c with
  | center_given s l => sc = B2R (s : double) /\ lc = B2R (l : double)
  | _ => sc = IZR samples / 2 /\ lc = IZR lines / 2
  end.
