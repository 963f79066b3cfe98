(** Theorems C53-C56, C60 and C88: computed planes. *)
From Coq Require Import List ZArith Reals Bool Lra Lia.
From Flocq Require Import Core BinarySingleNaN.
From Verif Require Import Base Flt FltFacts Num Extrema_Model Spheroid_Model Spheroid_Spec Proj_Model
  Virtual_Model Virtual_Spec Virtual_Proofs VirtualScale_Proofs VirtualPlane_Proofs.
Import ListNotations.
Open Scope R_scope.

#[local] Existing Instance prec53.
#[local] Existing Instance emax53.

(** C53: with an accurate mathematics library, every computed plane can be
    stored in every integral map type, except longitudes in unsigned bytes,
    which are refused.  The scale is a power of ten >= 1; every physical value of
    the plane is stored as a value of the type (the conversion is defined) that is
    inside the limits of the plane. *)
Theorem C53_planes_fit : forall L, accurate L -> forall t lo hi p, type_range t lo hi ->
  (t = U8 /\ p = longitude_plane /\ forall ex, make_virtual L t p ex = Throw range_error) \/
  (exists s o ex k, make_virtual L t p ex_empty = Ok (s, o, ex) /\ (0 <= k)%Z /\ B2R s = IZR (10 ^ k) /\
     forall physical lat lon v, physical lat lon = Ok (Some v) -> is_finite v = true -> plane_range p (B2R v) ->
     exists d, read_virtual (A := ar_double) s o physical lat lon = Ok (Some d) /\
       is_finite d = true /\ IZR lo <= B2R d <= IZR hi /\
       int_of_double lo hi d = Ok (Ztrunc (B2R d)) /\ in_range ex d = true).
Proof. exact planes_fit. Qed.
Print Assumptions C53_planes_fit.

Example C53_case : type_range I16 (-32768) 32767 /\ plane_range latitude_plane (B2R (double_of_Z 45)).
Proof.
  split; [constructor|]. destruct (double_of_Z_exact 45 ltac:(lia)) as [_ ->]. simpl. lra.
Qed.

(** C54: limits that are not finite, reversed or wider than the type are refused. *)
Theorem C54_rejects : forall L t lo hi min max, type_range t lo hi ->
  is_finite min = false \/ is_finite max = false \/
  (is_finite min = true /\ is_finite max = true /\
   (B2R max < B2R min \/ (t <> I64 /\ IZR (hi - lo + 1) <= B2R max - B2R min) \/
    IZR (2 ^ 64 + 2 ^ 12) <= B2R max - B2R min)) ->
  scale_and_offset L t min max = Ok None.
Proof. exact rejects. Qed.
Print Assumptions C54_rejects.

Example C54_rejects_case : type_range U8 0 255 /\
  IZR (255 - 0 + 1) <= B2R (double_of_Z 360) - B2R (double_of_Z 0).
Proof.
  split; [constructor|]. destruct (double_of_Z_exact 360 ltac:(lia)) as [_ ->].
  destruct (double_of_Z_exact 0 ltac:(lia)) as [_ ->]. simpl. lra.
Qed.

(** C54: floating point maps hold the physical values, whatever the limits. *)
Theorem C54_floating : forall L t min max, t = F32 \/ t = F64 ->
  exists s o, scale_and_offset L t min max = Ok (Some (s, o)) /\
    forall physical lat lon v, physical lat lon = Ok (Some v) -> is_finite v = true ->
    exists d, read_virtual (A := ar_double) s o physical lat lon = Ok (Some d) /\ is_finite d = true /\ B2R d = B2R v.
Proof. exact floating_unscaled. Qed.
Print Assumptions C54_floating.
Example C54_floating_case : forall L,
  scale_and_offset L F32 (double_of_Z 0) (double_of_Z 360) = Ok (Some (double_of_Z 1, double_of_Z 0)).
Proof. reflexivity. Qed.

(** C54: up to 32 bits the scale of a success is 10 to a power >= 0.  Missing for the
    full claim: 64 bits, where it is false (below), and powers beyond 22, which
    are not doubles. *)
Theorem C54_scale_partial : forall L t lo hi min max s o, accurate L -> type_range t lo hi -> t <> I64 ->
  scale_and_offset L t min max = Ok (Some (s, o)) ->
  exists k, (0 <= k)%Z /\ s = s_pow10 L k /\ ((k <= 22)%Z -> B2R s = IZR (10 ^ k)).
Proof. exact success_scale. Qed.
Print Assumptions C54_scale_partial.

(** C54: when the scaled limits are inside the type, no offset is used and all
    data between the limits fit.  Missing for the full claim: limits for which an
    offset is chosen; it is false there (below). *)
Theorem C54_fits_partial : forall L t lo hi min max s o, type_range t lo hi ->
  scale_and_offset L t min max = Ok (Some (s, o)) ->
  is_finite s = true -> 0 <= B2R s ->
  is_finite (Bmult mode_NE min s) = true -> is_finite (Bmult mode_NE max s) = true ->
  IZR lo <= B2R (Bmult mode_NE min s) -> B2R (Bmult mode_NE max s) <= IZR hi ->
  o = double_of_Z 0 /\
  forall physical lat lon v, physical lat lon = Ok (Some v) -> is_finite v = true -> B2R min <= B2R v <= B2R max ->
  exists d, read_virtual (A := ar_double) s o physical lat lon = Ok (Some d) /\
    is_finite d = true /\ IZR lo <= B2R d <= IZR hi /\
    B2R d = round radix2 (SpecFloat.fexp 53 1024) ZnearestE (B2R v * B2R s).
Proof. exact fits_without_offset. Qed.
Print Assumptions C54_fits_partial.

Example C54_fits_case : IZR (-32768) <= B2R (Bmult mode_NE (double_of_Z (-90)) (double_of_Z 100)) /\
  B2R (Bmult mode_NE (double_of_Z 90) (double_of_Z 100)) <= IZR 32767.
Proof.
  split; match goal with |- context [B2R ?x] => eval_double x F V; rewrite V end; lra.
Qed.

(** Refutation of C54: equal limits are undefined behaviour, and successes exist
    whose data do not fit ([-3.5, 3.5] in 16 bits, [0, 7] in a byte,
    [100000, 100001] in 16 bits, [2^62, 2^63] in 64 bits) or whose scale is
    10^-1 (+-8e18 in 64 bits). *)
Theorem C54_refuted : forall L, accurate L ->
  (forall t lo hi m, type_range t lo hi -> is_finite m = true -> scale_and_offset L t m m = UB ub_conversion) /\
  (exists s o, scale_and_offset L I16 (dlit (-7) (-1)) (dlit 7 (-1)) = Ok (Some (s, o)) /\
     ~ scaled_data_fit (-32768) 32767 (-7 / 2) (7 / 2) (B2R s) (B2R o)) /\
  (exists s o, scale_and_offset L U8 (double_of_Z 0) (double_of_Z 7) = Ok (Some (s, o)) /\
     ~ scaled_data_fit 0 255 0 7 (B2R s) (B2R o)) /\
  (exists s o, scale_and_offset L I16 (double_of_Z 100000) (double_of_Z 100001) = Ok (Some (s, o)) /\
     ~ scaled_data_fit (-32768) 32767 100000 100001 (B2R s) (B2R o)) /\
  (exists s o, scale_and_offset L I64 (double_of_Z (2 ^ 62)) (double_of_Z (2 ^ 63)) = Ok (Some (s, o)) /\
     ~ scaled_data_fit (- 2 ^ 63) (2 ^ 63 - 1) (IZR (2 ^ 62)) (IZR (2 ^ 63)) (B2R s) (B2R o)) /\
  (exists o, scale_and_offset L I64 (double_of_Z (-8 * 10 ^ 18)) (double_of_Z (8 * 10 ^ 18)) = Ok (Some (s_pow10 L (-1), o))).
Proof. exact scale_refuted. Qed.
Print Assumptions C54_refuted.

Example C54_refuted_case : scaled_data_fit 0 255 0 2 100 0 /\ ~ scaled_data_fit 0 255 0 7 100 0.
Proof. unfold scaled_data_fit. split; [lra|]. intros [_ H]. lra. Qed.

(** C55: the physical value is BSCALE times the stored value plus BZERO, and
    truncation of the stored value costs less than one scaled unit. *)
Theorem C55_converts_back : forall s o (physical : ar_num -> ar_num -> outcome (option ar_num)) lat lon v, s <> 0 ->
  physical lat lon = Ok (Some (Num v)) ->
  exists stored bscale bzero,
    read_virtual (A := ar_num) (Num s) (Num o) physical lat lon = Ok (Some (Num stored)) /\
    virtual_scale (A := ar_num) (Num s) = Num bscale /\
    virtual_offset (A := ar_num) (Num s) (Num o) = Num bzero /\
    bscale * stored + bzero = v /\
    Rabs (bscale * IZR (Ztrunc stored) + bzero - v) < 1 / Rabs s.
Proof. exact converts_back. Qed.
Print Assumptions C55_converts_back.

Example C55_case : 1 / 100 * (45 * 100 + 7) + 1 / 100 * (0 - 7) = 45.
Proof. lra. Qed.

(** C55: in any arithmetic reading fails exactly as the computation does. *)
Theorem C55_fails_alike : forall (A : arith) (s o : A) physical lat lon,
  (read_virtual s o physical lat lon = Ok None <-> physical lat lon = Ok None) /\
  (forall e, read_virtual s o physical lat lon = Throw e <-> physical lat lon = Throw e) /\
  (forall u, read_virtual s o physical lat lon = UB u <-> physical lat lon = UB u).
Proof. exact read_follows. Qed.
Print Assumptions C55_fails_alike.

Example C55_fails_case : read_virtual (A := ar_num) (Num 10) (Num 0) (fun _ _ => Ok None) (Num 0) (Num 0) = Ok None.
Proof. reflexivity. Qed.

(** C56: the longitude plane over the reals, for any value [c] of pi. *)
Theorem C56_longitude : forall c lat lon, 0 < c ->
  exists d, longitude_data (A := ar_num) (Num (2 * c)) (Num (c / 180)) num_fmod lat (Num lon) = Ok (Some (Num d)) /\
    0 <= d <= 360 /\ same_direction (lon / (c / 180)) d.
Proof. exact longitude_real. Qed.
Print Assumptions C56_longitude.

Example C56_longitude_case : same_direction (-1090) 350.
Proof. exists (-4)%Z. lra. Qed.

(** C56: the longitude plane in doubles: every finite longitude gives a finite
    value of [0, 360], every other one gives no data. *)
Theorem C56_longitude_double : forall fmod, fmod_spec fmod -> forall lon,
  (is_finite lon = true -> exists d, longitude_double fmod lon = Ok (Some d) /\ is_finite d = true /\ 0 <= B2R d <= 360) /\
  (is_finite lon = false -> longitude_double fmod lon = Ok None).
Proof. exact longitude_double_range. Qed.
Print Assumptions C56_longitude_double.

Example C56_longitude_double_case :
  B2R (Bdiv mode_NE (Bopp d_pi) d_degree) = -180 /\ B2R (Bdiv mode_NE d_circle d_degree) = 360.
Proof.
  eval_double (Bdiv mode_NE (Bopp d_pi) d_degree) F V. eval_double (Bdiv mode_NE d_circle d_degree) F' V'. auto.
Qed.

(** C56: the latitude plane over the reals. *)
Theorem C56_latitude : forall eq pol low gl lat lon, 0 < pol -> pol <= eq ->
  (- (PI / 2) <= lat <= PI / 2 ->
     exists d, latitude_data (libm_num PI low) (num_graphic eq pol) gl (Num lat) lon = Ok (Some (Num d)) /\
       -90 <= d <= 90 /\ d = (if gl then graphic_latitude eq pol lat else lat) * 180 / PI) /\
  (~ (- (PI / 2) <= lat <= PI / 2) -> latitude_data (libm_num PI low) (num_graphic eq pol) gl (Num lat) lon = Ok None).
Proof. exact latitude_real. Qed.
Print Assumptions C56_latitude.

Example C56_latitude_case : - (PI / 2) <= PI / 4 <= PI / 2 /\ PI / 4 * 180 / PI = 45.
Proof. pose proof PI_RGT_0. split; [lra|field; lra]. Qed.

(** C56: the latitude plane in doubles, for a latitude that is a number and a
    conversion to planetographic latitudes that keeps them within +-pi/2. *)
Theorem C56_latitude_double : forall (L : libm ar_double) (graphic : double -> double) gl (lat lon : double),
  l_pi2 L = d_pi2 -> l_degree L = d_degree -> is_nan lat = false ->
  (gl = true -> is_finite lat = true -> is_finite (graphic lat) = true /\ Rabs (B2R (graphic lat)) <= B2R d_pi2) ->
  (is_finite lat = true /\ Rabs (B2R lat) <= B2R d_pi2 ->
     exists d, latitude_data L graphic gl lat lon = Ok (Some d) /\ is_finite d = true /\ -90 <= B2R d <= 90) /\
  (~ (is_finite lat = true /\ Rabs (B2R lat) <= B2R d_pi2) -> latitude_data L graphic gl lat lon = Ok None).
Proof. exact latitude_double_range. Qed.
Print Assumptions C56_latitude_double.

Example C56_latitude_double_case : is_finite (Bdiv mode_NE d_pi2 d_degree) = true /\ B2R (Bdiv mode_NE d_pi2 d_degree) = 90.
Proof. eval_double (Bdiv mode_NE d_pi2 d_degree) F V. split; [exact F|exact V]. Qed.

(** Refutation of C56 for NaN: such a latitude is reported as data. *)
Theorem C56_nan_refuted : forall (L : libm ar_double) graphic lon,
  exists d, latitude_data L graphic false (B754_nan : double) lon = Ok (Some d) /\ is_nan d = true.
Proof. exact latitude_nan. Qed.
Print Assumptions C56_nan_refuted.

Example C56_nan_case : is_nan (B754_nan : double) = true /\ is_nan d_pi = false.
Proof. split; reflexivity. Qed.

(** C60: after any sequence of settings the limits are the first admissible
    ones of their kind; a NaN is refused. *)
Theorem C60_first_setting : forall calls : list setter_call,
  e_min (after_calls calls ex_empty) = first_setting true calls /\
  e_max (after_calls calls ex_empty) = first_setting false calls.
Proof. exact settings. Qed.
Print Assumptions C60_first_setting.

Example C60_case : first_setting true [(false, double_of_Z 9); (true, B754_nan); (true, double_of_Z 1); (true, double_of_Z 2)] =
  Some (double_of_Z 1).
Proof. reflexivity. Qed.

Theorem C60_nan : forall (ex : extrema (ct F64)) (d : double), is_nan d = true ->
  (e_min ex = None -> factory_minimum ex d = Throw invalid_argument) /\
  (e_max ex = None -> factory_maximum ex d = Throw invalid_argument).
Proof. exact nan_setting. Qed.
Print Assumptions C60_nan.

Example C60_nan_case : e_min (@ex_empty (ct F64)) = None /\ is_nan (B754_nan : double) = true.
Proof. split; reflexivity. Qed.

(** C60: the defaults of a computed plane do not replace limits of the user. *)
Theorem C60_defaults : forall L t p ex s o ex', make_virtual L t p ex = Ok (s, o, ex') ->
  (forall m, e_min ex = Some m -> e_min ex' = Some m) /\ (forall m, e_max ex = Some m -> e_max ex' = Some m) /\
  (e_min ex = None -> e_min ex' = Some (Bplus mode_NE (Bmult mode_NE (double_of_Z (plane_low p)) s) o)) /\
  (e_max ex = None -> e_max ex' = Some (Bplus mode_NE (Bmult mode_NE (double_of_Z (plane_high p)) s) o)).
Proof. exact make_keeps. Qed.
Print Assumptions C60_defaults.

Example C60_defaults_case : forall L,
  make_virtual L F32 mu_plane (Extrema (T := ct F64) (Some (double_of_Z 0)) None) =
  Ok (double_of_Z 1, double_of_Z 0, Extrema (T := ct F64) (Some (double_of_Z 0))
        (Some (Bplus mode_NE (Bmult mode_NE (double_of_Z 1) (double_of_Z 1)) (double_of_Z 0)))).
Proof. intros L. reflexivity. Qed.

(** C88: the cosine planes contain the cosines of the angles between the
    directions they are named after, so the assertions never fail. *)
Theorem C88_cosines : forall eq pol low lat lon, 0 < pol -> pol <= eq -> - (PI / 2) <= lat <= PI / 2 ->
  let deg := fun x => x * (PI / 180) in
  let p := spherical (centric_radius eq pol lat) lat lon in
  (forall so_lat so_lon range,
     let c := angle_cosine (gradient eq pol p) (minus3 (spherical range (deg so_lat) (deg so_lon)) p) in
     mu_data (libm_num PI low) (num_mu eq pol) (Num so_lat) (Num so_lon) (Num range) (Num lat) (Num lon) =
       Ok (Some (Num c)) /\ -1 <= c <= 1) /\
  (forall ss_lat ss_lon,
     let c := angle_cosine (gradient eq pol p) (spherical 1 (deg ss_lat) (deg ss_lon)) in
     mu0_data (libm_num PI low) (num_mu0 eq pol) (Num ss_lat) (Num ss_lon) (Num lat) (Num lon) =
       Ok (Some (Num c)) /\ -1 <= c <= 1) /\
  (forall so_lat so_lon ss_lat ss_lon range,
     let c := angle_cosine (spherical 1 (deg ss_lat) (deg ss_lon)) (minus3 (spherical range (deg so_lat) (deg so_lon)) p) in
     cos_phase_data (libm_num PI low) (num_cos_phase eq pol) (Num so_lat) (Num so_lon) (Num ss_lat) (Num ss_lon)
       (Num range) (Num lat) (Num lon) = Ok (Some (Num c)) /\ -1 <= c <= 1).
Proof. exact cosine_planes. Qed.
Print Assumptions C88_cosines.

Example C88_case : 0 < 66854 /\ 66854 <= 71492 /\ - (PI / 2) <= 0 <= PI / 2.
Proof. pose proof PI_RGT_0. lra. Qed.
