(** Property theorems C35-C40: the oblate spheroid. *)
From Coq Require Import List ZArith Reals Lra Lia Bool.
From Flocq Require Import Core BinarySingleNaN.
From Verif Require Import Base Flt Num LinAlg_Model Maths_Model Maths_Spec Spheroid_Model Spheroid_Spec Spheroid_Proofs.
Import ListNotations.
Open Scope R_scope.

(** C35, for doubles (infinities included, [fval] of an infinity is +-2^1024)
    and for reals with NaN. *)
Theorem C35_radii_validated :
  (forall pro (e p : double), spheroid_new (A := ar_double) pro e p =
     if negb (is_nan e) && negb (is_nan p) && Rlt_bool 0 (fval p) && Rle_bool (fval p) (fval e)
     then Ok (Spheroid pro (e : ar_double) (p : ar_double)) else Throw invalid_argument) /\
  (forall pro (e p : num), spheroid_new (A := ar_num) pro e p =
     match e, p with
     | Num a, Num c => if Rlt_bool 0 c && Rle_bool c a
                       then Ok (Spheroid pro (Num a : ar_num) (Num c : ar_num)) else Throw invalid_argument
     | _, _ => Throw invalid_argument
     end).
Proof. exact (conj spheroid_new_double spheroid_new_num). Qed.
Print Assumptions C35_radii_validated.

Example C35_case : spheroid_new (A := ar_num) true (Num 3) (Num 2) = Ok (Spheroid true (Num 3 : ar_num) (Num 2 : ar_num)) /\
  spheroid_new (A := ar_num) true (Num 2) (Num 3) = Throw invalid_argument.
Proof.
  rewrite !spheroid_new_num. split.
  - rewrite Rlt_bool_true, Rle_bool_true by lra. reflexivity.
  - rewrite (Rle_bool_false 3 2), andb_false_r by lra. reflexivity.
Qed.

(** C36, poles included. *)
Theorem C36_latitude_conversions : forall eq pol, 0 < pol -> pol <= eq ->
  (forall x, - (PI / 2) <= x <= PI / 2 ->
     centric_latitude eq pol (graphic_latitude eq pol x) = x /\
     graphic_latitude eq pol (centric_latitude eq pol x) = x /\
     centric_latitude eq pol (- x) = - centric_latitude eq pol x /\
     graphic_latitude eq pol (- x) = - graphic_latitude eq pol x /\
     (0 <= x -> 0 <= centric_latitude eq pol x /\ centric_latitude eq pol x <= x /\ x <= graphic_latitude eq pol x)) /\
  (forall x y, - (PI / 2) <= x -> x < y -> y <= PI / 2 ->
     centric_latitude eq pol x < centric_latitude eq pol y /\ graphic_latitude eq pol x < graphic_latitude eq pol y).
Proof. exact (fun eq pol H H' => conj (latitudes eq pol H H') (latitudes_increasing eq pol H H')). Qed.
Print Assumptions C36_latitude_conversions.

(** The graphic latitude is the inclination of the surface normal: the
    independent definition of planetographic latitude. *)
Theorem C36_graphic_is_normal : forall eq pol, 0 < pol -> pol <= eq -> forall r lat lon,
  - (PI / 2) <= lat <= PI / 2 ->
  exists t, 0 < t /\ gradient eq pol (spherical r lat lon) = vscale (spherical 1 (graphic_latitude eq pol lat) lon) (r * t).
Proof. exact gradient_normal. Qed.
Print Assumptions C36_graphic_is_normal.

Example C36_case : graphic_latitude 2 1 (PI / 4) = atan 4.
Proof.
  unfold graphic_latitude. rewrite open_ktan by (pose proof PI_RGT_0; lra). rewrite tan_PI4. f_equal. field.
Qed.

(** C37 *)
Theorem C37_centric_radius : forall eq pol, 0 < pol -> pol <= eq ->
  (forall lat lon, on_spheroid eq pol (spherical (centric_radius eq pol lat) lat lon)) /\
  (forall r lat lon, 0 < r -> on_spheroid eq pol (spherical r lat lon) -> r = centric_radius eq pol lat) /\
  (forall lat, pol <= centric_radius eq pol lat <= eq) /\
  (centric_radius eq pol 0 = eq /\ centric_radius eq pol (PI / 2) = pol /\ centric_radius eq pol (- (PI / 2)) = pol).
Proof.
  exact (fun eq pol H H' => conj (radius_on eq pol H H') (conj (radius_unique eq pol H H')
    (conj (radius_between eq pol H H') (radius_ends eq pol H H')))).
Qed.
Print Assumptions C37_centric_radius.

Example C37_case : centric_radius 3 2 (PI / 2) = 2.
Proof. apply radius_ends; lra. Qed.

(** C38: normal, direction to the observer at distance [range] from the centre,
    direction to the sun. *)
Theorem C38_cosines : forall eq pol, 0 < pol -> pol <= eq ->
  (forall so_lat so_lon lat lon range, - (PI / 2) <= lat <= PI / 2 ->
     let p := spherical (centric_radius eq pol lat) lat lon in
     let o := spherical range so_lat so_lon in
     mu eq pol so_lat so_lon lat lon range = angle_cosine (gradient eq pol p) (minus3 o p)) /\
  (forall ss_lat ss_lon lat lon, - (PI / 2) <= lat <= PI / 2 ->
     let p := spherical (centric_radius eq pol lat) lat lon in
     mu0 eq pol ss_lat ss_lon lat lon = angle_cosine (gradient eq pol p) (spherical 1 ss_lat ss_lon)) /\
  (forall so_lat so_lon ss_lat ss_lon lat lon range,
     let p := spherical (centric_radius eq pol lat) lat lon in
     let o := spherical range so_lat so_lon in
     cos_phase eq pol so_lat so_lon ss_lat ss_lon lat lon range = angle_cosine (spherical 1 ss_lat ss_lon) (minus3 o p)).
Proof.
  exact (fun eq pol H H' => conj (mu_is_cosine eq pol H H') (conj (mu0_is_cosine eq pol H H') (cos_phase_is_cosine eq pol))).
Qed.
Print Assumptions C38_cosines.

Theorem C38_cosine_range : forall u v, -1 <= angle_cosine u v <= 1.
Proof. exact angle_cosine_bound. Qed.
Print Assumptions C38_cosine_range.

Example C38_case : mu0 1 1 0 0 0 0 = 1.
Proof.
  unfold mu0, graphic_latitude. pose proof PI_RGT_0. rewrite open_ktan by lra.
  rewrite tan_0, Rmult_0_r, atan_0, Rminus_0_r, sin_0, cos_0. ring.
Qed.

(** C39, observer outside the body.  Missing: lines that touch the body in one
    point or leave it behind the observer, refuted below. *)
Theorem C39_intersection_partial : forall eq pol, 0 < pol -> pol <= eq ->
  (forall p d, ellipse_intersection eq pol p d = Ok bad_input <-> vget d 0 = 0 /\ vget d 1 = 0 /\ vget d 2 = 0) /\
  (forall p d, ~ (vget d 0 = 0 /\ vget d 1 = 0 /\ vget d 2 = 0) -> outside eq pol p ->
     (ellipse_intersection eq pol p d = Ok miss <-> forall k, ~ on_spheroid eq pol (along p d k))) /\
  (forall p d, outside eq pol p ->
     ((exists lat lon, ellipse_intersection eq pol p d = Ok (found lat lon)) <->
      exists k k', 0 < k /\ 0 < k' /\ k <> k' /\ on_spheroid eq pol (along p d k) /\ on_spheroid eq pol (along p d k'))) /\
  (forall p d lat lon, outside eq pol p ->
     ellipse_intersection eq pol p d = Ok (found lat lon) ->
     exists k l, 0 < k /\ lat = Num l /\ on_spheroid eq pol (along p d k) /\ has_coordinates (along p d k) l lon /\
       (forall k', on_spheroid eq pol (along p d k') -> k <= k')).
Proof.
  exact (fun eq pol H H' => conj (bad_input_iff eq pol H H') (conj (miss_iff eq pol H H')
    (conj (found_iff eq pol H H') (found_nearest eq pol H H')))).
Qed.
Print Assumptions C39_intersection_partial.

(** A tangent line of sight, or one pointing away from a body behind the
    observer, fails the assertion [k.second < k.first] and aborts. *)
Theorem C39_intersection_refuted :
  ellipse_intersection 1 1 [1; -2; 0] [0; 1; 0] = UB ub_assert /\
  on_spheroid 1 1 (along [1; -2; 0] [0; 1; 0] 2) /\ outside 1 1 [1; -2; 0] /\
  ellipse_intersection 1 1 [0; -2; 0] [0; -1; 0] = UB ub_assert /\
  outside 1 1 [0; -2; 0] /\
  (forall k, 0 <= k -> ~ on_spheroid 1 1 (along [0; -2; 0] [0; -1; 0] k)).
Proof. exact unit_sphere_abort. Qed.
Print Assumptions C39_intersection_refuted.

Example C39_case : outside 1 1 [0; -2; 0] /\
  exists lat lon, ellipse_intersection 1 1 [0; -2; 0] [0; 1; 0] = Ok (found lat lon).
Proof.
  assert (O : outside 1 1 [0; -2; 0]) by (unfold outside, vget; cbn [nth]; lra).
  split; [exact O|]. apply found_iff; [lra|lra|exact O|]. exists 1, 3.
  repeat split; try lra; unfold on_spheroid, along, vget; cbn [nth]; field.
Qed.

(** C40: M is the radius of curvature of the meridian ellipse, N the length of
    the normal down to the polar axis. *)
Theorem C40_curvature : forall eq pol, 0 < pol -> pol <= eq ->
  (forall lat, - (PI / 2) <= lat <= PI / 2 -> 0 < M eq pol lat <= N eq pol lat) /\
  (forall lat, - (PI / 2) <= lat <= PI / 2 ->
     M eq pol lat = ellipse_curvature_radius eq pol (centric_radius eq pol lat * cos lat) (centric_radius eq pol lat * sin lat)) /\
  (forall lat, - (PI / 2) <= lat <= PI / 2 ->
     N eq pol lat * cos (graphic_latitude eq pol lat) = centric_radius eq pol lat * cos lat) /\
  (M eq pol (PI / 2) = eq ^ 2 / pol /\ N eq pol (PI / 2) = eq ^ 2 / pol /\
   M eq pol 0 = pol ^ 2 / eq /\ N eq pol 0 = eq).
Proof.
  exact (fun eq pol H H' => conj (MN_order eq pol H H') (conj (M_curvature eq pol H H')
    (conj (N_axis eq pol H H') (MN_ends eq pol H H')))).
Qed.
Print Assumptions C40_curvature.

Example C40_case : M 2 1 0 = 1 / 2 /\ N 2 1 (PI / 2) = 4.
Proof. destruct (MN_ends 2 1) as (_ & E2 & E1 & _); [lra|lra|]. rewrite E1, E2. split; field. Qed.
