(** Property theorems C41-C45 and C78-C82: viewing geometry. *)
From Coq Require Import List ZArith Reals Lra Lia Bool.
From Flocq Require Import Core BinarySingleNaN.
From Verif Require Import Base Flt FltFacts Num LinAlg_Model Maths_Model Maths_Spec Spheroid_Model Spheroid_Spec
  Spheroid_Proofs View_Model View_Spec View_Proofs ViewSet_Proofs ViewRot_Proofs ViewConv_Proofs ViewAxis_Proofs.
Import ListNotations.
Open Scope R_scope.
#[local] Existing Instance prec53.
#[local] Existing Instance emax53.

(** C41 for numbers (not NaN; infinities included).  The full statement fails for
    NaN, for pairs and for a range between the radii; see below. *)
Theorem C41_setters_partial : forall (degree pi twopi max_range : double) (cosine : double -> double) (eq pol : double)
    (g : geom ar_double) (m : member) (x : double),
  (* latitudes: sub_observ_lat, sub_solar_lat, lat_at_center *)
  ((angle_ok 90 x -> stored m (Bmult mode_NE x degree : ar_double) g (set_latitude (A := ar_double) degree m x g)) /\
   (~ angle_ok 90 x -> rejected invalid_argument g (set_latitude (A := ar_double) degree m x g))) /\
  (* longitudes *)
  ((angle_ok 360 x -> stored m (positive_equivalent twopi (Bmult mode_NE x degree) : ar_double) g
                             (set_longitude (A := ar_double) degree twopi m x g)) /\
   (~ angle_ok 360 x -> rejected invalid_argument g (set_longitude (A := ar_double) degree twopi m x g))) /\
  (* position angle *)
  ((angle_ok 360 x -> stored position_angle_ (Bmult mode_NE x degree : ar_double) g (set_position_angle (A := ar_double) degree x g)) /\
   (~ angle_ok 360 x -> rejected invalid_argument g (set_position_angle (A := ar_double) degree x g))) /\
  (* body center and optical axis *)
  ((is_nan x = false -> stored m (x : ar_double) g (set_position (A := ar_double) m x g)) /\
   (is_nan x = true -> rejected invalid_argument g (set_position (A := ar_double) m x g))) /\
  (is_nan x = false ->
   (* km_per_pixel, focal_length, scale *)
   ((0 < fval x -> stored m (x : ar_double) g (set_positive (A := ar_double) m x g)) /\
    (fval x <= 0 -> rejected invalid_argument g (set_positive (A := ar_double) m x g))) /\
   (* arcsec_per_pixel *)
   ((fval x <= 0 -> rejected invalid_argument g (set_arcsec_per_pixel (A := ar_double) pi x g)) /\
    (0 < fval x -> is_nan (g range_) = true -> rejected logic_error g (set_arcsec_per_pixel (A := ar_double) pi x g)) /\
    (0 < fval x -> is_nan (g range_) = false ->
     stored km_per_pixel_ (Bmult mode_NE (Bmult mode_NE (Bdiv mode_NE pi (double_of_Z 648000)) x) (g range_) : ar_double) g
            (set_arcsec_per_pixel (A := ar_double) pi x g))) /\
   (* emi_ang_limit *)
   ((angle_ok 90 x -> stored mu_limit_ (cosine (Bmult mode_NE x degree) : ar_double) g (set_emi_ang_limit (A := ar_double) degree cosine x g)) /\
    (~ angle_ok 90 x -> rejected domain_error g (set_emi_ang_limit (A := ar_double) degree cosine x g))) /\
   (* range *)
   (is_nan eq = false -> is_nan pol = false -> is_nan max_range = false ->
    (Rmin (fval eq) (fval pol) < fval x < fval max_range -> stored range_ (x : ar_double) g (set_range (A := ar_double) max_range eq pol x g)) /\
    (~ (Rmin (fval eq) (fval pol) < fval x < fval max_range) -> rejected invalid_argument g (set_range (A := ar_double) max_range eq pol x g)))).
Proof.
  exact (fun degree pi twopi max_range cosine eq pol g m x =>
    conj (setter_latitude degree m x g) (conj (setter_longitude degree twopi m x g) (conj (setter_position_angle degree x g)
    (conj (setter_position m x g) (fun N => conj (setter_positive m x g N) (conj (setter_arcsec pi x g N)
    (conj (setter_emi degree cosine x g N) (fun Ne Np Nm => setter_range max_range eq pol x g N Ne Np Nm)))))))).
Qed.
Print Assumptions C41_setters_partial.

(** NaN is accepted by six setters. *)
Theorem C41_nan_refuted : forall (degree pi max_range : double) (cosine : double -> double) (eq pol : double) (g : geom ar_double),
  is_nan (g range_) = false -> forall x : double, is_nan x = true ->
  stored km_per_pixel_ (x : ar_double) g (set_positive (A := ar_double) km_per_pixel_ x g) /\
  stored focal_length_ (x : ar_double) g (set_positive (A := ar_double) focal_length_ x g) /\
  stored scale_ (x : ar_double) g (set_positive (A := ar_double) scale_ x g) /\
  stored range_ (x : ar_double) g (set_range (A := ar_double) max_range eq pol x g) /\
  (exists y, stored km_per_pixel_ y g (set_arcsec_per_pixel (A := ar_double) pi x g)) /\
  (exists y, stored mu_limit_ y g (set_emi_ang_limit (A := ar_double) degree cosine x g)).
Proof. exact setter_nan. Qed.
Print Assumptions C41_nan_refuted.

(** A pair setter (sub_observ, sub_solar, lat_lon_center) with a bad longitude
    throws but has stored the latitude. *)
Theorem C41_pair_refuted : forall (degree twopi : double) (m1 m2 : member) (lat lon : double) (g : geom ar_double),
  angle_ok 90 lat -> ~ angle_ok 360 lon ->
  snd (set_lat_lon (A := ar_double) degree twopi m1 m2 lat lon g) = Some invalid_argument /\
  fst (set_lat_lon (A := ar_double) degree twopi m1 m2 lat lon g) m1 = Bmult mode_NE lat degree.
Proof. exact setter_pair. Qed.
Print Assumptions C41_pair_refuted.

Theorem C41_pair_stored : forall (degree twopi : double) (m1 m2 : member) (lat lon : double) (g : geom ar_double), m1 <> m2 ->
  angle_ok 90 lat -> angle_ok 360 lon ->
  let r := set_lat_lon (A := ar_double) degree twopi m1 m2 lat lon g in
  snd r = None /\ fst r m1 = Bmult mode_NE lat degree /\ fst r m2 = positive_equivalent twopi (Bmult mode_NE lon degree) /\
  forall k, k <> m1 -> k <> m2 -> fst r k = g k.
Proof. exact setter_pair_ok. Qed.
Print Assumptions C41_pair_stored.

(** The pairs body_center and optical_axis. *)
Theorem C41_positions_stored : forall (m1 m2 : member) (sample line : double) (g : geom ar_double), m1 <> m2 ->
  is_nan sample = false -> is_nan line = false ->
  let r := set_positions (A := ar_double) m1 m2 sample line g in
  snd r = None /\ fst r m1 = sample /\ fst r m2 = line /\ forall k, k <> m1 -> k <> m2 -> fst r k = g k.
Proof. exact setter_positions_ok. Qed.
Print Assumptions C41_positions_stored.

Theorem C41_positions_refuted : forall (m1 m2 : member) (sample line : double) (g : geom ar_double),
  is_nan sample = false -> is_nan line = true ->
  snd (set_positions (A := ar_double) m1 m2 sample line g) = Some invalid_argument /\
  fst (set_positions (A := ar_double) m1 m2 sample line g) m1 = sample.
Proof. exact setter_positions_bad. Qed.
Print Assumptions C41_positions_refuted.

Example C41_case : angle_ok 90 (double_of_Z 90) /\ ~ angle_ok 90 (double_of_Z 91) /\ is_nan (B754_nan : double) = true.
Proof.
  destruct (double_of_Z_exact 90) as [F0 E0]; [lia|]. destruct (double_of_Z_exact 91) as [F1 E1]; [lia|].
  unfold angle_ok. rewrite (fval_finite (double_of_Z 90)), (fval_finite (double_of_Z 91)), E0, E1 by assumption.
  split; [split; [now apply finite_not_nan|lra]|]. split; [intros [_ H]; lra|reflexivity].
Qed.

(** C42. *)
Theorem C42_visible : forall v lat lon limit,
  0 < v_pol v <= v_eq v -> - (PI / 2) <= lat <= PI / 2 -> v_mu_limit v = Num limit ->
  (let p := spherical (centric_radius (v_eq v) (v_pol v) lat) lat lon in
   let emission := angle_cosine (gradient (v_eq v) (v_pol v) p) (minus3 (spherical (v_range v) (v_sub_lat v) (v_sub_lon v)) p) in
   is_visible v lat lon = true <->
   limit < emission /\
   (v_use_terminator v = true -> exists sl so, v_sub_solar_lat v = Num sl /\ v_sub_solar_lon v = Num so /\
      0 < angle_cosine (gradient (v_eq v) (v_pol v) p) (spherical 1 sl so))) /\
  (latlon2pix v lat lon = None <-> is_visible v lat lon = false).
Proof. exact (fun v lat lon limit H H' E => conj (visible_iff v lat lon limit H H' E) (latlon2pix_visible v lat lon)). Qed.
Print Assumptions C42_visible.

Example C42_case : exists v, v_pol v = 1 /\ v_eq v = 1 /\ v_mu_limit v = Num 0 /\ is_visible v 0 0 = true.
Proof. destruct unit_view as (v & F & E & P & M & V & _). exists v. auto. Qed.

(** C43 for a body center given in pixels, without lens correction.  The body is in
    front of the camera (third hypothesis), and the offset of its center is
    compatible with the sub-observer latitude (second hypothesis, see C78).
    Longitudes of retrograde bodies come back wrong. *)
Theorem C43_roundtrip_partial : forall pro eq pol g term samples lines sub_lat sub_lon range kpp os ol sc lc pa,
  center_given eq pol g samples lines sub_lat sub_lon range kpp os ol sc lc pa ->
  offset kpp os ol sc lc <= range * cos sub_lat ->
  eq * eq + offset kpp os ol sc lc * offset kpp os ol sc lc < range * range ->
  exists v, finalize_setup pro eq pol g term null_correction samples lines = Ok (Some v) /\
  forall m, g mu_limit_ = Num m -> 0 <= m -> forall lat lon, - (PI / 2) <= lat <= PI / 2 -> is_visible v lat lon = true ->
  exists x z lon', latlon2pix v lat lon = Some (Num x, Num z) /\ pix2latlon v x z = Ok (Some (Num lat, lon')) /\
    (cos lat <> 0 -> same_angle lon' (if pro then lon else lon - 2 * sub_lon)).
Proof. exact center_roundtrip. Qed.
Print Assumptions C43_roundtrip_partial.

Theorem C43_retrograde_refuted : exists v,
  center_given 1 1 (unit_geom 0 (PI / 2) 0 0 0 0) 1 1 0 (PI / 2) 3 1 0 0 0 0 0 /\
  finalize_setup false 1 1 (unit_geom 0 (PI / 2) 0 0 0 0) false null_correction 1 1 = Ok (Some v) /\
  is_visible v 0 (PI / 2) = true /\
  latlon2pix v 0 (PI / 2) = Some (Num 0, Num 0) /\
  exists lon', pix2latlon v 0 0 = Ok (Some (Num 0, lon')) /\ ~ same_angle lon' (PI / 2).
Proof. exact retrograde_view. Qed.
Print Assumptions C43_retrograde_refuted.

Example C43_case : forall s, center_given 1 1 (unit_geom 0 s 0 0 0 0) 1 1 0 s 3 1 0 0 0 0 0 /\
  offset 1 0 0 0 0 <= 3 * cos 0 /\ 1 * 1 + offset 1 0 0 0 0 * offset 1 0 0 0 0 < 3 * 3.
Proof. intros s. rewrite unit_offset, cos_0. split; [apply unit_center|lra]. Qed.

(** C44, full frame and summation mode; images of at most 400 samples are taken as
    summed, and have the axis at (200, 200). *)
Theorem C44_lens : forall samples sm, (sm = true <-> (samples <= 400)%Z) ->
  let c := gll_correction samples in
  (forall l s, let p := image_to_object c l s in object_to_image c (fst p) (snd p) = (l, s)) /\
  (forall l s, let p := object_to_image c l s in image_to_object c (fst p) (snd p) = (l, s)) /\
  (object_to_image c (axis sm) (axis sm) = (axis sm, axis sm) /\
   image_to_object c (axis sm) (axis sm) = (axis sm, axis sm)) /\
  (forall l s, (l, s) <> (axis sm, axis sm) -> axis_distance sm (l, s) < axis_distance sm (object_to_image c l s)).
Proof. exact gll_all. Qed.
Print Assumptions C44_lens.

Example C44_case : axis_distance false (400, 500) < axis_distance false (gll_object_to_image false 400 500).
Proof. apply gll_grows. intros E. injection E as E. lra. Qed.

(** C45. *)
Theorem C45_mask : forall v s lns, (Z.of_nat s * Z.of_nat lns < size_mod)%Z ->
  ((exists mask, body_mask v (Z.of_nat s) (Z.of_nat lns) = Ok mask) <->
   (forall i k, (i < s)%nat -> (k < lns)%nat -> exists r, pix2latlon v (INR i) (INR k) = Ok r)) /\
  forall mask, body_mask v (Z.of_nat s) (Z.of_nat lns) = Ok mask ->
    length mask = (s * lns)%nat /\
    forall i k, (i < s)%nat -> (k < lns)%nat ->
      (nth (k * s + i) mask false = true <-> exists lat lon, pix2latlon v (INR i) (INR k) = Ok (Some (lat, lon))).
Proof. exact body_mask_spec. Qed.
Print Assumptions C45_mask.

Example C45_case : exists v, finalize_setup true 1 1 (unit_geom 0 0 0 0 0 0) false null_correction 1 1 = Ok (Some v) /\
  body_mask v 1 1 = Ok [true].
Proof.
  destruct unit_view as (v & F & _ & _ & _ & _ & _ & lon & P). exists v. split; [exact F|].
  unfold body_mask, mask_pixel. change (seq 0 (Z.to_nat 1)) with [0%nat]. cbn [fold_left bind]. change (INR 0) with 0. rewrite P. reflexivity.
Qed.

(** C78, same hypotheses as C43. *)
Theorem C78_center_pixel_partial : forall pro eq pol g term samples lines sub_lat sub_lon range kpp os ol sc lc pa,
  center_given eq pol g samples lines sub_lat sub_lon range kpp os ol sc lc pa ->
  offset kpp os ol sc lc <= range * cos sub_lat ->
  eq * eq + offset kpp os ol sc lc * offset kpp os ol sc lc < range * range ->
  exists v, finalize_setup pro eq pol g term null_correction samples lines = Ok (Some v) /\
  (is_visible v sub_lat sub_lon = true -> latlon2pix v sub_lat sub_lon = Some (Num sc, Num lc)).
Proof. exact center_center. Qed.
Print Assumptions C78_center_pixel_partial.

(** Without the second hypothesis the setup does not fail, but every pixel is NaN. *)
Theorem C78_inconsistent_refuted : forall term, exists v,
  center_given 1 1 (unit_geom (PI / 2) 0 1 0 0 1) 1 1 (PI / 2) 0 3 1 1 0 0 1 0 /\
  finalize_setup true 1 1 (unit_geom (PI / 2) 0 1 0 0 1) term null_correction 1 1 = Ok (Some v) /\
  forall lat lon, is_visible v lat lon = true -> latlon2pix v lat lon = Some (NaN, NaN).
Proof. exact pole_on_view. Qed.
Print Assumptions C78_inconsistent_refuted.

Example C78_case : exists v, finalize_setup true 1 1 (unit_geom 0 0 0 0 0 0) false null_correction 1 1 = Ok (Some v) /\
  latlon2pix v 0 0 = Some (Num 0, Num 0).
Proof. destruct unit_view as (v & F & _ & _ & _ & _ & L & _). exists v. auto. Qed.

(** C79 on the observer's meridian. *)
Theorem C79_axis_pixel_partial : forall pro eq pol g term samples lines sub_lat sub_lon range os ol lat_c lon_c pa,
  axis_given eq pol g samples lines sub_lat sub_lon range os ol lat_c lon_c pa -> same_angle lon_c sub_lon ->
  exists v, finalize_setup pro eq pol g term null_correction samples lines = Ok (Some v) /\
    (is_visible v lat_c lon_c = true -> latlon2pix v lat_c lon_c = Some (Num os, Num ol)).
Proof. exact axis_on_meridian. Qed.
Print Assumptions C79_axis_pixel_partial.

(** Off that meridian it fails for every view (resolution from the focal length). *)
Theorem C79_axis_pixel_refuted : forall pro eq pol g term samples lines sub_lat sub_lon range os ol lat_c lon_c pa,
  axis_given eq pol g samples lines sub_lat sub_lon range os ol lat_c lon_c pa ->
  forall v x z, finalize_setup pro eq pol g term null_correction samples lines = Ok (Some v) -> g km_per_pixel_ = NaN ->
  cos lat_c <> 0 -> sin (sub_lon - lon_c) <> 0 ->
  latlon2pix v lat_c lon_c = Some (Num x, Num z) -> (x, z) <> (os, ol).
Proof. exact axis_off_meridian. Qed.
Print Assumptions C79_axis_pixel_refuted.

Example C79_case : axis_given 1 1 (axis_geom 0 0 (PI / 3)) 1 1 0 0 3 0 0 0 (PI / 3) 0 /\
  sin (0 - PI / 3) <> 0 /\ cos 0 <> 0.
Proof.
  pose proof PI_RGT_0. split; [|split].
  - constructor; auto; try reflexivity; try lra. right. split; [reflexivity|]. exists 1, 1. repeat split; lra.
  - replace (0 - PI / 3) with (- (PI / 3)) by ring. rewrite sin_neg. assert (0 < sin (PI / 3)) by (apply sin_gt_0; lra). lra.
  - rewrite cos_0. lra.
Qed.

(** C80.  For a body center given in pixels, including the pixel of the pole of a
    body on the optical axis. *)
Theorem C80_north_center_partial : forall pro eq pol g term samples lines sub_lat sub_lon range kpp os ol sc lc pa,
  center_given eq pol g samples lines sub_lat sub_lon range kpp os ol sc lc pa ->
  offset kpp os ol sc lc <= range * cos sub_lat ->
  eq * eq + offset kpp os ol sc lc * offset kpp os ol sc lc < range * range ->
  exists v, finalize_setup pro eq pol g term null_correction samples lines = Ok (Some v) /\ north_at v pa /\
  (sc = os -> lc = ol -> is_visible v (PI / 2) sub_lon = true ->
   exists t, 0 <= t /\ latlon2pix v (PI / 2) sub_lon = Some (Num (sc - t * sin pa), Num (lc - t * cos pa))).
Proof. exact center_north. Qed.
Print Assumptions C80_north_center_partial.

(** For a position given at the optical axis, on the observer's meridian. *)
Theorem C80_north_axis_partial : forall pro eq pol g term samples lines sub_lat sub_lon range os ol lat_c lon_c pa,
  axis_given eq pol g samples lines sub_lat sub_lon range os ol lat_c lon_c pa -> same_angle lon_c sub_lon ->
  centric_radius eq pol lat_c * cos lat_c <= range * cos sub_lat ->
  exists v, finalize_setup pro eq pol g term null_correction samples lines = Ok (Some v) /\ north_at v pa.
Proof. exact axis_north. Qed.
Print Assumptions C80_north_axis_partial.

(** An observer closer to the polar axis than the point looked at gets the image
    upside down. *)
Theorem C80_north_axis_refuted : forall pro eq pol g term samples lines sub_lat sub_lon range os ol lat_c lon_c pa,
  axis_given eq pol g samples lines sub_lat sub_lon range os ol lat_c lon_c pa -> same_angle lon_c sub_lon ->
  range * cos sub_lat < centric_radius eq pol lat_c * cos lat_c ->
  exists v, finalize_setup pro eq pol g term null_correction samples lines = Ok (Some v) /\ north_at v (pa + PI) /\ ~ north_at v pa.
Proof. exact axis_upside_down. Qed.
Print Assumptions C80_north_axis_refuted.

Example C80_case : axis_given 1 1 (axis_geom (PI / 2) (PI / 4) 0) 1 1 (PI / 2) 0 3 0 0 (PI / 4) 0 0 /\
  same_angle 0 0 /\ 3 * cos (PI / 2) < centric_radius 1 1 (PI / 4) * cos (PI / 4).
Proof.
  pose proof PI_RGT_0. split; [|split].
  - constructor; auto; try reflexivity; try lra. right. split; [reflexivity|]. exists 1, 1. repeat split; lra.
  - exists 0%Z. ring.
  - rewrite cos_PI2, unit_radius. assert (0 < cos (PI / 4)) by (apply cos_gt_0; lra). lra.
Qed.

(** C81 fails: the lens is applied to coordinates relative to the optical axis. *)
Theorem C81_lens_refuted : forall v lat lon,
  latlon2pix (with_correction v null_correction) lat lon = Some (Num 400, Num 400) ->
  v_OA_s v = 400 -> v_OA_l v = 400 ->
  exists x z, latlon2pix (with_correction v (gll_correction 800)) lat lon = Some (Num x, Num z) /\ x < 400 /\ 400 < z.
Proof. exact gll_axis_shift. Qed.
Print Assumptions C81_lens_refuted.

Example C81_case : exists v, latlon2pix (with_correction v null_correction) 0 0 = Some (Num 400, Num 400) /\
  v_OA_s v = 400 /\ v_OA_l v = 400.
Proof.
  pose proof PI_RGT_0.
  assert (O : offset 1 400 400 400 400 = 0) by (unfold offset; replace ((400 - 400) ^ 2 + (400 - 400) ^ 2) with 0 by ring; rewrite sqrt_0; ring).
  assert (C : center_given 1 1 (unit_geom 0 0 400 400 400 400) 1 1 0 0 3 1 400 400 400 400 0) by (constructor; auto; try reflexivity; lra).
  destruct (center_view true 1 1 (unit_geom 0 0 400 400 400 400) false 1 1 0 0 3 1 400 400 400 400 0 C) with (corr := null_correction)
    as (v & n & X & Z & F & A & Hn & HX & Eb & Ep & Ee & El & Esa & Eso & Er & Em & Ec & Eos & Eol & Et); try (rewrite O, ?cos_0; lra).
  destruct (center_center true 1 1 (unit_geom 0 0 400 400 400 400) false 1 1 0 0 3 1 400 400 400 400 0 C) as (v' & F' & Cc); try (rewrite O, ?cos_0; lra).
  rewrite F in F'. injection F' as <-. exists v. split; [|auto].
  replace (with_correction v null_correction) with v by (rewrite <- Ec; destruct v; reflexivity).
  apply Cc. apply unit_visible; auto; [lra|]. rewrite Esa, Eso, sub_self, sin_0, cos_0. lra.
Qed.

(** C82 fails for a position given at the optical axis without the body center in
    pixels. *)
Theorem C82_sky_removal_refuted : forall pro eq pol g term samples lines sub_lat sub_lon range os ol lat_c lon_c pa,
  axis_given eq pol g samples lines sub_lat sub_lon range os ol lat_c lon_c pa ->
  forall v s n, finalize_setup pro eq pol g term null_correction samples lines = Ok (Some v) -> g sample_center_ = NaN ->
  (0 < s)%nat -> (0 < n)%nat -> (Z.of_nat s * Z.of_nat n < size_mod)%Z ->
  (forall x z, pix2latlon v x z = UB ub_assert) /\ ~ exists mask, body_mask v (Z.of_nat s) (Z.of_nat n) = Ok mask.
Proof. exact axis_mask. Qed.
Print Assumptions C82_sky_removal_refuted.

Example C82_case : exists v, finalize_setup true 1 1 (axis_geom 0 0 0) false null_correction 1 1 = Ok (Some v) /\
  axis_geom 0 0 0 sample_center_ = NaN.
Proof.
  pose proof PI_RGT_0.
  destruct (axis_on_meridian true 1 1 (axis_geom 0 0 0) false 1 1 0 0 3 0 0 0 0 0) as (v & F & _).
  - constructor; auto; try reflexivity; try lra. right. split; [reflexivity|]. exists 1, 1. repeat split; lra.
  - exists 0%Z. ring.
  - exists v. split; [exact F|reflexivity].
Qed.
