(** C46-C51, C83, C84: map projections. *)
From Coq Require Import List ZArith Reals Lra Lia Bool.
From Flocq Require Import Core BinarySingleNaN.
From Verif Require Import Base Flt Num Maths_Model Maths_Spec Spheroid_Model Proj_Model Proj_Spec
  Proj_Proofs ProjGrid_Proofs ProjGridR_Proofs ProjGridX_Proofs ProjMerc_Proofs ProjPolar_Proofs.
Import ListNotations.
Open Scope R_scope.

(** C46. *)
Theorem C46_every_cell_once : forall (A : arith) prograde (centric : A -> A) (p : simple_cyl A) samples lines,
  map_size samples lines ->
  exists calls o, sc_plot_map prograde centric p samples lines = (calls, Ok o) /\
    map snd calls = offsets (samples * lines).
Proof. exact sc_all. Qed.
Print Assumptions C46_every_cell_once.

Example C46_case : map_size 4 3 /\ offsets (4 * 3) = [0; 1; 2; 3; 4; 5; 6; 7; 8; 9; 10; 11]%Z.
Proof. split; [repeat split; reflexivity || discriminate|reflexivity]. Qed.

(** C47, over the reals. *)
Theorem C47_uniform : forall c low eq pol, 0 < c <= PI -> 0 < pol -> pol <= eq ->
  forall prograde l h (lo_lon hi_lon : num) gl p samples lines, map_size samples lines -> l < h ->
  simple_cyl_new (libm_num c low) (num_graphic eq pol) (Num l : ar_num) (Num h : ar_num) lo_lon hi_lon gl = Ok p ->
  exists calls o a b lat lon,
    sc_plot_map prograde (num_centric eq pol) p samples lines = (calls, Ok o) /\
    sc_lo_lon p = Num a /\ sc_hi_lon p = Num b /\
    forall k i, (0 <= k < lines)%Z -> (0 <= i < samples)%Z ->
      (forall q, plotted samples calls k i q <-> q = (Num (lat k) : ar_num, Num (lon i) : ar_num)) /\
      l * (c / 180) < lat k < h * (c / 180) /\
      (let conv := if gl then graphic_latitude eq pol else (fun x => x) in
       conv (lat k) = conv (l * (c / 180)) +
         (IZR k + 1 / 2) * ((conv (h * (c / 180)) - conv (l * (c / 180))) / IZR lines)) /\
      lon i = (if prograde then b - (IZR i + 1 / 2) * ((b - a) / IZR samples)
               else a + (IZR i + 1 / 2) * ((b - a) / IZR samples)) /\
      (a < b -> a < lon i < b).
Proof. exact sc_uniform. Qed.
Print Assumptions C47_uniform.

Example C47_case : exists p,
  simple_cyl_new (libm_num PI 0) (num_graphic 2 1) (Num (-30) : ar_num) (Num 60 : ar_num) (Num 270 : ar_num) (Num 90 : ar_num) true = Ok p /\
  sc_lo_lon p = Num (- (PI / 2)) /\ sc_hi_lon p = Num (PI / 2).
Proof.
  pose proof PI_RGT_0. unfold simple_cyl_new, boundary_latitude.
  rewrite !validate_lat_ok, !validate_lon_ok by lra. cbn [bind].
  eexists. split; [nums; rewrite Rlt_bool_true by nra; reflexivity|]. cbn. split; f_equal; field.
Qed.

(** C48 holds when the longitudes are less than a turn apart; a range that is a
    full circle to within rounding is taken as one. *)
Theorem C48_interval : forall c low gra (lo_lat hi_lat : num) o u gl p, 0 < c ->
  simple_cyl_new (libm_num c low) (num1 (fun r => Num (gra r))) lo_lat hi_lat (Num o : ar_num) (Num u : ar_num) gl = Ok p ->
  o - u < 360 -> u - o <= 360 ->
  exists a b, sc_lo_lon p = Num (a * (c / 180)) /\ sc_hi_lon p = Num (b * (c / 180)) /\
    same_degrees a o /\ same_degrees b u /\ a < b /\
    (b - a <= 360 \/ (b - a = 360 + (u - o) /\ indistinguishable (o * (c / 180)) (u * (c / 180)))).
Proof. exact sc_interval. Qed.
Print Assumptions C48_interval.

(** LO_LON 360, HI_LON 0 gives an empty interval; -360 to 360 two full circles. *)
Theorem C48_interval_refuted : forall c low gra, 1 < c ->
  (exists p, simple_cyl_new (libm_num c low) (num1 (fun r => Num (gra r))) (Num (-90) : ar_num) (Num 90 : ar_num)
     (Num 360 : ar_num) (Num 0 : ar_num) false = Ok p /\
     sc_lo_lon p = Num 0 /\ sc_hi_lon p = Num 0) /\
  (exists p, simple_cyl_new (libm_num c low) (num1 (fun r => Num (gra r))) (Num (-90) : ar_num) (Num 90 : ar_num)
     (Num (-360) : ar_num) (Num 360 : ar_num) false = Ok p /\
     sc_lo_lon p = Num (- (2 * c)) /\ sc_hi_lon p = Num (2 * c)).
Proof. exact sc_empty_circle. Qed.
Print Assumptions C48_interval_refuted.

Example C48_case : exists a b, same_degrees a 270 /\ same_degrees b 90 /\ a < b /\ b - a <= 360.
Proof. exists (-90), 90. repeat split; try lra; [exists (-1)%Z; lra|exists 0%Z; lra]. Qed.

(** C49 for doubles: whatever the functions of <cmath> return, nothing outside the
    grid is written and the values are 0 and 255, the only other outcomes being a
    conversion to std::size_t out of range and a loop that does not end. *)
Theorem C49_simple_cylindrical_doubles : forall (L : libm ar_double) prograde p samples lines,
  rounds_to_integer L -> map_size samples lines -> (samples * lines <= 2 ^ 53)%Z -> (lines <= 2 ^ 53)%Z -> (samples <= 2 ^ 53)%Z ->
  forall fuel lat_interval lon_interval,
  match make_grid samples lines (sc_plot_grid L prograde p fuel samples lines lat_interval lon_interval) with
  | None => True
  | Some (Ok g) => black_or_white (samples * lines) g
  | Some (UB u) => u = ub_conversion
  | Some (Throw _) => False
  end.
Proof.
  exact (fun L pro p s l HL Hm H1 H2 H3 fuel a b =>
    cylindrical_safe L s l Hm double_converts (double_row_starts L s l HL (proj1 (proj1 Hm)) (proj1 (proj1 (proj2 Hm))) H1 H2 H3) fuel pro a b _ _).
Qed.
Print Assumptions C49_simple_cylindrical_doubles.

Theorem C49_mercator_doubles : forall (L : libm ar_double) prograde e graphic samples lines,
  rounds_to_integer L -> map_size samples lines -> (samples * lines <= 2 ^ 53)%Z -> (lines <= 2 ^ 53)%Z -> (samples <= 2 ^ 53)%Z ->
  forall fuel lat_interval lon_interval,
  match make_grid samples lines (mercator_plot_grid L prograde e graphic fuel samples lines lat_interval lon_interval) with
  | None => True
  | Some (Ok g) => black_or_white (samples * lines) g
  | Some (UB u) => u = ub_conversion
  | Some (Throw _) => False
  end.
Proof.
  exact (fun L pro e gr s l HL Hm H1 H2 H3 fuel a b =>
    cylindrical_safe L s l Hm double_converts (double_row_starts L s l HL (proj1 (proj1 Hm)) (proj1 (proj1 (proj2 Hm))) H1 H2 H3) fuel pro a b _ _).
Qed.
Print Assumptions C49_mercator_doubles.

(** The polar grid makes no conversion outside the grid at all. *)
Theorem C49_polar_doubles : forall (L : libm ar_double) eq_rad e graphic p samples lines,
  rounds_to_integer L -> map_size samples lines -> (lines <= 2 ^ 53)%Z -> (samples <= 2 ^ 53)%Z ->
  forall fuel lat_interval lon_interval,
  match make_grid samples lines (polar_plot_grid L eq_rad e graphic p fuel samples lines lat_interval lon_interval) with
  | None => True
  | Some (Ok g) => black_or_white (samples * lines) g
  | Some _ => False
  end.
Proof.
  exact (fun L eq e gr p s l HL Hm H2 H3 fuel a b =>
    polar_safe L s l Hm (double_gridded L l HL (conj (proj1 (proj1 (proj2 Hm))) H2)) (double_gridded L s HL (conj (proj1 (proj1 Hm)) H3)) eq e gr p fuel a b).
Qed.
Print Assumptions C49_polar_doubles.

(** C49 over the reals: the loops end and exactly the grid lines are drawn, when the
    western edge is not east of the prime meridian. *)
Theorem C49_simple_cylindrical : forall c low, 0 < c ->
  forall prograde lo hi a b gl samples lines iv jv, map_size samples lines ->
  0 < iv -> 0 < jv -> lo < hi -> a < b -> -360 <= a <= 0 -> 360 * IZR samples < (2 ^ 64 - 1) * (b - a) ->
  exists g n0, (forall fuel, (n0 <= fuel)%nat ->
    make_grid samples lines (sc_plot_grid (libm_num c low) prograde
      (@SimpleCyl ar_num (Num (c / 180 * lo)) (Num (c / 180 * hi)) (Num (c / 180 * a)) (Num (c / 180 * b)) gl)
      fuel samples lines (Num iv : ar_num) (Num jv : ar_num)) = Some (Ok g)) /\
    black_or_white (samples * lines) g /\
    forall k i, (0 <= k < lines)%Z -> (0 <= i < samples)%Z ->
      (white_at samples g k i <->
       (exists n, grid_latitude iv n /\ nearest ((n - lo) / (hi - lo) * IZR lines) k) \/
       (exists m m' r, grid_longitude jv m /\ same_degrees m' m /\ a < m' <= a + 360 /\
          nearest ((m' - a) / (b - a) * IZR samples) r /\ i = (if prograde then samples - r else r)%Z)).
Proof. exact sc_grid_content. Qed.
Print Assumptions C49_simple_cylindrical.

Theorem C49_mercator : forall low eq pol prograde samples lines iv jv, 0 < pol -> pol <= eq ->
  map_size samples lines -> (0 < samples)%Z -> (0 < lines)%Z -> 0 < iv -> 0 < jv ->
  exists g n0, (forall fuel, (n0 <= fuel)%nat ->
    make_grid samples lines (mercator_plot_grid (libm_num PI low) prograde (Num (first_eccentricity eq pol) : ar_num)
      (num_graphic eq pol) fuel samples lines (Num iv : ar_num) (Num jv : ar_num)) = Some (Ok g)) /\
    black_or_white (samples * lines) g /\
    forall k i, (0 <= k < lines)%Z -> (0 <= i < samples)%Z ->
      (white_at samples g k i <->
       (exists n, grid_latitude iv n /\
          nearest (isometric_latitude (first_eccentricity eq pol) (graphic_latitude eq pol (n * (PI / 180))) / (2 * PI / IZR samples) + IZR lines / 2) k) \/
       (exists m r, grid_longitude jv m /\ nearest (m / 360 * IZR samples) r /\ i = (if prograde then samples - r else r)%Z)).
Proof. exact merc_grid_content. Qed.
Print Assumptions C49_mercator.

(** With a western edge east of the prime meridian a grid meridian west of that edge
    is converted to std::size_t although negative. *)
Theorem C49_west_of_map_refuted : forall c low, 0 < c ->
  forall prograde lo hi a b gl samples lines iv jv m, map_size samples lines ->
  0 < iv -> 0 < jv -> lo < hi -> a < b -> 0 <= a -> grid_longitude jv m ->
  (m - a) / (b - a) * IZR samples < - (1 / 2) ->
  exists n0, forall fuel, (n0 <= fuel)%nat ->
    make_grid samples lines (sc_plot_grid (libm_num c low) prograde
      (@SimpleCyl ar_num (Num (c / 180 * lo)) (Num (c / 180 * hi)) (Num (c / 180 * a)) (Num (c / 180 * b)) gl)
      fuel samples lines (Num iv : ar_num) (Num jv : ar_num)) = Some (UB ub_conversion).
Proof. exact sc_grid_undefined. Qed.
Print Assumptions C49_west_of_map_refuted.

Example C49_west_case : map_size 90 90 /\ grid_longitude 10 80 /\ (80 - 90) / (180 - 90) * IZR 90 < - (1 / 2).
Proof.
  split; [repeat split; reflexivity || discriminate|]. split; [exists 28%Z; repeat split; [lia|lra|lra]|lra].
Qed.

(** Positive intervals below 2^-47 degrees, and interval 0, never end. *)
Theorem C49_small_interval_refuted : forall (L : libm ar_double) prograde p samples lines lon_interval (x : double),
  rounds_to_integer L -> map_size samples lines -> (samples * lines <= 2 ^ 53)%Z -> (lines <= 2 ^ 53)%Z -> (samples <= 2 ^ 53)%Z ->
  is_finite x = true -> 0 <= B2R x < bpow radix2 (-47) ->
  forall fuel, make_grid samples lines (sc_plot_grid L prograde p fuel samples lines (x : ar_double) lon_interval) = None.
Proof.
  exact (fun L pro p s l j x HL Hm H1 H2 H3 F B =>
    grid_stuck L pro s l x j _ _ Hm (double_row_starts L s l HL (proj1 (proj1 Hm)) (proj1 (proj1 (proj2 Hm))) H1 H2 H3)
      (double_stuck x F B) double_m90_lt).
Qed.
Print Assumptions C49_small_interval_refuted.

Example C49_small_case : exists x : double, is_finite x = true /\ 0 < B2R x < bpow radix2 (-47).
Proof.
  exists (@B754_finite 53 1024 false 4503599627370496 (-112) eq_refl). split; [reflexivity|].
  cbn [B2R]. unfold F2R. cbn [Fnum Fexp SpecFloat.cond_Zopp].
  change 4503599627370496 with (bpow radix2 52). rewrite <- bpow_plus. split; [apply bpow_gt_0|apply bpow_lt; lia].
Qed.

(** C50. *)
Theorem C50_every_cell_once : forall (A : arith) (L : libm A) prograde e centric find samples lines, map_size samples lines ->
  forall calls o, mercator_plot_map L prograde e centric find samples lines = (calls, o) ->
  in_order calls /\ inside (samples * lines) calls /\
  ((exists n, o = Ok n) -> map snd calls = offsets (samples * lines)).
Proof. exact merc_any. Qed.
Print Assumptions C50_every_cell_once.

Theorem C50_forward : forall e, 0 <= e < 1 ->
  (forall x, - (PI / 2) < x < PI / 2 -> forall low, mercator_x (libm_num PI low) (Num e : ar_num) (Num x : ar_num) = Num (isometric_latitude e x)) /\
  (forall x, - (PI / 2) < x < PI / 2 -> isometric_latitude e (- x) = - isometric_latitude e x) /\
  (forall x y, - (PI / 2) < x -> x < y -> y < PI / 2 -> isometric_latitude e x < isometric_latitude e y).
Proof.
  exact (fun e He => conj (fun x Hx low => mercator_x_num low e x He Hx) (conj (mx_odd e He) (mx_increasing e He))).
Qed.
Print Assumptions C50_forward.

Theorem C50_conformal : forall eq pol, 0 < pol -> pol <= eq -> forall x, - (PI / 2) < x < PI / 2 ->
  exists k, cylindrical_scale eq pol (isometric_latitude (first_eccentricity eq pol)) x k.
Proof. exact (fun eq pol Hp Hep x Hx => ex_intro _ _ (merc_conformal eq pol Hp Hep x Hx)). Qed.
Print Assumptions C50_conformal.

(** With exact root finding: every cell is plotted at the preimage of its line, and
    lines equally far from the middle have opposite latitudes. *)
Theorem C50_cells_partial : forall low eq pol prograde find samples lines, 0 < pol -> pol <= eq ->
  map_size samples lines -> (0 < samples)%Z -> (0 < lines)%Z -> exact_finder find -> low < - (IZR lines / IZR samples * PI) ->
  forall calls o, mercator_plot_map (libm_num PI low) prograde (Num (first_eccentricity eq pol) : ar_num)
    (num_centric eq pol) find samples lines = (calls, o) ->
  forall k i p, (0 <= i < samples)%Z -> plotted samples calls k i p ->
    exists latg, - (PI / 2) < latg < PI / 2 /\
      isometric_latitude (first_eccentricity eq pol) latg = (IZR k + 1 / 2 - IZR lines / 2) * (2 * PI / IZR samples) /\
      p = (Num (centric_latitude eq pol latg) : ar_num,
           Num (if prograde then 2 * PI - (IZR i + 1 / 2) * (2 * PI / IZR samples)
                else (IZR i + 1 / 2) * (2 * PI / IZR samples)) : ar_num).
Proof. exact merc_exact. Qed.
Print Assumptions C50_cells_partial.

Theorem C50_symmetric_partial : forall low eq pol prograde find samples lines, 0 < pol -> pol <= eq ->
  map_size samples lines -> (0 < samples)%Z -> (0 < lines)%Z -> exact_finder find -> low < - (IZR lines / IZR samples * PI) ->
  forall calls o, mercator_plot_map (libm_num PI low) prograde (Num (first_eccentricity eq pol) : ar_num)
    (num_centric eq pol) find samples lines = (calls, o) ->
  forall k i j lat lon lat' lon', (0 <= i < samples)%Z -> (0 <= j < samples)%Z ->
    plotted samples calls k i (Num lat : ar_num, lon) -> plotted samples calls (lines - 1 - k) j (Num lat' : ar_num, lon') ->
    lat' = - lat.
Proof. exact merc_symmetric. Qed.
Print Assumptions C50_symmetric_partial.

(** A finder that knows the answer 0 is exact, and solves a map of one line. *)
Local Definition zero_finder (y lo hi : ar_num) (f : ar_num -> ar_num) : outcome ar_num :=
  match y, lo, hi, f (Num 0) with
  | Num a, Num l, Num h, Num b => if Req_bool a b && Rle_bool l 0 && Rle_bool 0 h then Ok (Num 0) else Throw runtime_error
  | _, _, _, _ => Throw runtime_error
  end.
Lemma zero_finder_exact : exact_finder zero_finder.
Proof.
  intros y lo hi f r. unfold zero_finder. destruct (f (Num 0)) as [|b] eqn:F; [discriminate|].
  destruct (Req_bool_spec y b) as [->|]; [|discriminate]. destruct (Rle_bool_spec lo 0); [|discriminate].
  destruct (Rle_bool_spec 0 hi); [|discriminate]. intros E. apply Ok_inj in E. subst r. exists 0. auto.
Qed.
Example C50_case : exists calls o, exact_finder zero_finder /\
  mercator_plot_map (libm_num PI (-100)) true (Num (first_eccentricity 1 1) : ar_num) (num_centric 1 1) zero_finder 2 1 = (calls, Ok o) /\
  plotted 2 calls 0 0 (Num (centric_latitude 1 1 0) : ar_num, Num (2 * PI - 1 / 2 * (2 * PI / 2)) : ar_num).
Proof.
  destruct (merc_map PI (-100) (first_eccentricity 1 1) true (num_centric 1 1) zero_finder 2 1) as (calls & o & E & _ & P & T);
    [repeat split; reflexivity || discriminate|lia|lia|].
  assert (F : merc_find PI (-100) (first_eccentricity 1 1) zero_finder 2 1 0 = Ok (Num 0)).
  { unfold merc_find, merc_ord, zero_finder. rewrite mercator_x_num; [|apply ecc_range; lra|pose proof PI_RGT_0; lra].
    rewrite Req_bool_true.
    - pose proof PI_RGT_0. rewrite !Rle_bool_true by lra. reflexivity.
    - unfold isometric_latitude. rewrite sin_0, !Rmult_0_r. replace ((1 - 0) / (1 + 0)) with 1 by field.
      unfold Rpower. rewrite ln_1, Rmult_0_r, exp_0. replace (PI / 4 + 0 / 2) with (PI / 4) by field.
      rewrite tan_PI4, Rmult_1_r, ln_1. simpl. field. }
  destruct T as (n & ->). { intros k Hk. replace k with 0%Z by lia. exists (Num 0). exact F. }
  exists calls, n. split; [exact zero_finder_exact|]. split; [exact E|].
  destruct (P (ex_intro _ n eq_refl) 0%Z 0%Z ltac:(lia) ltac:(lia)) as (latg & F' & Pl).
  rewrite F in F'. apply Ok_inj in F'. subst latg. unfold merc_lon in Pl.
  replace (2 * PI - 1 / 2 * (2 * PI / 2)) with (2 * PI - (2 * 0 + 1) / 2 * PI) by field. exact Pl.
Qed.

(** C51. *)
Theorem C51_every_cell_once : forall (A : arith) (L : libm A) prograde eq_rad e graphic centric find p samples lines, map_size samples lines ->
  forall calls o, polar_plot_map L prograde eq_rad e graphic centric find p samples lines = (calls, o) ->
  in_order calls /\ inside (samples * lines) calls /\
  ((exists n, o = Ok n) -> map snd calls = offsets (samples * lines)).
Proof. exact polar_any. Qed.
Print Assumptions C51_every_cell_once.

Theorem C51_radius : forall e, 0 <= e < 1 ->
  stereographic_radius e (PI / 2) = 0 /\
  forall x y, - (PI / 2) < x -> x < y -> y <= PI / 2 -> stereographic_radius e y < stereographic_radius e x.
Proof. exact (fun e He => conj (sr_pole e) (sr_decreasing e He)). Qed.
Print Assumptions C51_radius.

Theorem C51_conformal : forall eq pol, 0 < pol -> pol <= eq -> forall x, - (PI / 2) < x < PI / 2 ->
  exists k, azimuthal_scale eq pol (stereographic_radius (first_eccentricity eq pol)) x k.
Proof. exact (fun eq pol Hp Hep x Hx => ex_intro _ _ (proj1 (polar_conformal eq pol Hp Hep x Hx))). Qed.
Print Assumptions C51_conformal.

(** With exact root finding: the distance from the center of the map is the
    projection of the latitude, ... *)
Theorem C51_distance_partial : forall low eq pol, 0 < pol -> pol <= eq -> forall prograde north find, exact_finder find ->
  forall samples lines, map_size samples lines -> (0 < samples)%Z -> (0 < lines)%Z ->
  forall (x : num) p, polar_new (libm_num PI low) (x : ar_num) north = Ok p ->
  forall calls o,
  polar_plot_map (libm_num PI low) prograde (Num eq : ar_num) (Num (first_eccentricity eq pol) : ar_num)
    (num_graphic eq pol) (num_centric eq pol) find p samples lines = (calls, o) ->
  exists edge, 0 < edge /\
  forall k i q, (0 <= i < samples)%Z -> plotted samples calls k i q -> exists latg,
    - (PI / 2) < latg <= PI / 2 /\ fst q = Num (centric_latitude eq pol (if north then latg else - latg)) /\
    stereographic_radius (first_eccentricity eq pol) latg = edge * from_center samples lines k i.
Proof. exact polar_built_radius. Qed.
Print Assumptions C51_distance_partial.

(** ... the circle touching the edges of the smaller dimension is MAX_LAT (the
    equator by default), everything inside it is nearer to the pole, the pole itself
    is at the center only, and longitudes run round the center. *)
Theorem C51_layout_partial : forall low eq pol, 0 < pol -> pol <= eq -> forall prograde north find, exact_finder find ->
  forall samples lines, map_size samples lines -> (0 < samples)%Z -> (0 < lines)%Z ->
  forall (x : num) p, polar_new (libm_num PI low) (x : ar_num) north = Ok p ->
  forall calls o,
  polar_plot_map (libm_num PI low) prograde (Num eq : ar_num) (Num (first_eccentricity eq pol) : ar_num)
    (num_graphic eq pol) (num_centric eq pol) find p samples lines = (calls, o) ->
  exists d, (x = Num d \/ x = NaN /\ d = 0) /\
  forall k i q, (0 <= i < samples)%Z -> plotted samples calls k i q -> exists lat lon,
    q = (Num lat : ar_num, Num lon : ar_num) /\
    (from_center samples lines k i < IZR (Z.min samples lines) / 2 <->
       if north then d * (PI / 180) < lat else lat < d * (PI / 180)) /\
    (from_center samples lines k i = IZR (Z.min samples lines) / 2 <-> lat = d * (PI / 180)) /\
    (from_center samples lines k i = 0 <-> lat = if north then PI / 2 else - (PI / 2)) /\
    (forall k' i' lat' lon', (0 <= i' < samples)%Z -> plotted samples calls k' i' (Num lat' : ar_num, lon') ->
       (from_center samples lines k i < from_center samples lines k' i' <-> if north then lat' < lat else lat < lat')) /\
    from_center samples lines k i * cos lon = along_line lines k /\
    from_center samples lines k i * sin lon =
      (if Bool.eqb north prograde then across samples i else - across samples i).
Proof. exact polar_built_layout. Qed.
Print Assumptions C51_layout_partial.

Example C51_case : from_center 3 3 1 1 = 0 /\ from_center 3 3 1 2 = 1 /\ from_center 3 3 1 2 < IZR (Z.min 3 3) / 2 /\
  exists p, polar_new (libm_num PI 0) (Num 30 : ar_num) true = Ok p.
Proof.
  assert (N : exists p, polar_new (libm_num PI 0) (Num 30 : ar_num) true = Ok p).
  { unfold polar_new, a_le. nums. cbn [negb andb num_abs]. rewrite Rlt_bool_true by (rewrite Rabs_pos_eq; lra). eexists. reflexivity. }
  assert (A : from_center 3 3 1 1 = 0).
  { unfold from_center, across, along_line. replace ((1 + 1 / 2 - 3 / 2) ^ 2 + (1 + 1 / 2 - 3 / 2) ^ 2) with 0 by field. apply sqrt_0. }
  assert (B : from_center 3 3 1 2 = 1).
  { unfold from_center, across, along_line. replace ((2 + 1 / 2 - 3 / 2) ^ 2 + (1 + 1 / 2 - 3 / 2) ^ 2) with 1 by field. apply sqrt_1. }
  rewrite A, B. repeat split; [|exact N]. change (Z.min 3 3) with 3%Z. lra.
Qed.

(** C83. *)
Theorem C83_mercator_distortion : forall eq pol, 0 < pol -> pol <= eq -> forall x, - (PI / 2) < x < PI / 2 ->
  exists k, cylindrical_scale eq pol (isometric_latitude (first_eccentricity eq pol)) x k /\ mercator_distortion eq pol x = eq * k.
Proof. exact merc_distortion. Qed.
Print Assumptions C83_mercator_distortion.

Example C83_case : mercator_distortion 1 1 (PI / 3) = 2.
Proof.
  unfold mercator_distortion. rewrite cos_PI3. unfold N.
  pose proof (ecc_sq 1 1 ltac:(lra) ltac:(lra)) as E. replace (1 - (1 / 1) ^ 2) with 0 in E by field.
  rewrite E, Rmult_0_l, Rminus_0_r, sqrt_1. field.
Qed.

(** C84 holds for spheres and for no other spheroid. *)
Theorem C84_polar_distortion_sphere : forall eq pol, 0 < pol -> pol <= eq -> forall x, pol = eq -> - (PI / 2) < x < PI / 2 ->
  exists k, azimuthal_scale eq pol (stereographic_radius (first_eccentricity eq pol)) x k /\
    forall low max_lat, ps_distortion (libm_num PI low) (Num eq : ar_num) (Num (first_eccentricity eq pol) : ar_num)
      (@Polar ar_num max_lat true) (Num x : ar_num) = Num (2 * eq * k).
Proof. exact polar_sphere_num. Qed.
Print Assumptions C84_polar_distortion_sphere.

Theorem C84_polar_distortion_refuted : forall eq pol, 0 < pol -> pol <= eq -> forall low max_lat, pol < eq ->
  ~ exists c, forall x, 0 <= x < PI / 2 -> exists k, 
    azimuthal_scale eq pol (stereographic_radius (first_eccentricity eq pol)) x k /\
    ps_distortion (libm_num PI low) (Num eq : ar_num) (Num (first_eccentricity eq pol) : ar_num)
      (@Polar ar_num max_lat true) (Num x : ar_num) = Num (c * k).
Proof. exact polar_oblate_num. Qed.
Print Assumptions C84_polar_distortion_refuted.

Example C84_case : ps_distortion (libm_num PI 0) (Num 2 : ar_num) (Num (first_eccentricity 2 1) : ar_num)
  (@Polar ar_num (Num 0) true) (Num (PI / 2) : ar_num) = Num 1.
Proof.
  pose proof PI_RGT_0. rewrite ps_distortion_num by lra. rewrite polar_dist_pole by lra. reflexivity.
Qed.
