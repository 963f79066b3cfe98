(** Theorems C52, C85-C87 (orthographic projection) and C49 for its grid. *)
From Coq Require Import List ZArith Reals Lra Lia Bool Sorting.Sorted.
From Flocq Require Import Core BinarySingleNaN.
From Verif Require Import Base Flt Num LinAlg_Model Maths_Model Maths_Spec Spheroid_Model Spheroid_Spec
  Proj_Model Proj_Spec Proj_Proofs Ortho_Model Ortho_Spec Ortho_Proofs OrthoVis_Proofs OrthoGrid_Proofs OrthoGridR_Proofs OrthoGridX_Proofs.
Import ListNotations.
Open Scope R_scope.

(** The constructor, plot_map and make_grid over the reals for a spheroid. *)
Local Notation construct low pro eq pol := (ortho_new (A := ar_num) (libm_num PI low) num_acos (NaN : ar_num) pro
  (Num eq : ar_num) (Num pol : ar_num) (num1 (fun r => Num (centric_radius eq pol r)) : ar_num -> ar_num)).
Local Notation map_of low pro eq pol := (ortho_plot_map (A := ar_num) (libm_num PI low) num_roots pro (Num eq : ar_num) (Num pol : ar_num)).
Local Notation grid_of low pro eq pol := (fun p samples lines fuel iv jv =>
  make_grid samples lines (ortho_plot_grid (A := ar_num) (libm_num PI low) num_acos num_ssize pro (Num eq : ar_num) (Num pol : ar_num)
    (num1 (fun r => Num (centric_radius eq pol r)) : ar_num -> ar_num) p fuel samples lines (Num iv : ar_num) (Num jv : ar_num))).

(** C52: every offset at most once, in increasing order, inside the map, and
    plot_map never throws; in any arithmetic, doubles included. *)
Theorem C52_offsets : forall (A : arith) (L : libm A) roots prograde eq pol (p : ortho A) samples lines,
  map_size samples lines ->
  exists calls o, ortho_plot_map L roots prograde eq pol p samples lines = (calls, Ok o) /\
    in_order calls /\ inside (samples * lines) calls.
Proof.
  exact (fun A L roots pro eq pol p samples lines H =>
    match ortho_offsets A L roots pro eq pol p samples lines H with
    | ex_intro _ calls (ex_intro _ o (conj E (conj Or (conj In _)))) => ex_intro _ calls (ex_intro _ o (conj E (conj Or In)))
    end).
Qed.
Print Assumptions C52_offsets.

Example C52_offsets_case : map_size 3 2 /\ in_order [(tt, 0%Z); (tt, 4%Z)] /\ inside 6 [(tt, 0%Z); (tt, 4%Z)].
Proof.
  split; [unfold map_size; lia|]. split.
  - unfold in_order. cbn [map snd]. constructor; [|constructor; [lia|constructor]]. constructor; [constructor|constructor].
  - intros q o [H|[H|[]]]; injection H as <- <-; lia.
Qed.

(** C52, C85: exactly the cells whose center lies on the disc of the body are
    plotted; the view is the requested one. *)
Theorem C52_disc : forall low prograde eq pol, 0 < pol -> pol <= eq ->
  forall (a b g : num) kpp (c : center ar_num) p samples lines,
  construct low prograde eq pol a b g (Num kpp : ar_num) c = Ok p ->
  map_size samples lines -> (0 < samples)%Z -> (0 < lines)%Z ->
  exists ra rb rg phi lam pa k sc lc calls o, a = Num ra /\ b = Num rb /\ g = Num rg /\
    view_of eq pol prograde ra rb rg kpp c samples lines phi lam pa k sc lc /\
    map_of low prograde eq pol p samples lines = (calls, Ok o) /\
    forall j i, (0 <= j < lines)%Z -> (0 <= i < samples)%Z ->
      let x := km k sc (IZR i + 1 / 2) in let z := km k lc (IZR j + 1 / 2) in
      (exists q, plotted samples calls j i q) <->
      exists P, is_vec 3 P /\ on_spheroid eq pol P /\ projects_to prograde phi lam pa P x z.
Proof. exact cells_disc. Qed.
Print Assumptions C52_disc.

Example C52_disc_case : exists P, is_vec 3 P /\ on_spheroid 2 1 P /\ projects_to true 0 0 0 P 1 0.
Proof.
  exists [sqrt 3; 1; 0]. split; [reflexivity|]. split.
  - unfold on_spheroid, vget. cbn [nth]. rewrite pow2_sqrt by lra. field.
  - unfold projects_to, inner, rightward, northward, east, vget. cbn [sum_to nth]. rewrite Ropp_0, sin_0, cos_0. split; ring.
Qed.

(** C52 for spheres, equatorial and polar views: the plotted latitude and longitude
    are those of the surface point in the middle of the cell, on the side facing
    the observer.  Missing: tilted views of oblate bodies, see the refutation. *)
Theorem C52_surface_partial : forall low prograde eq pol, 0 < pol -> pol <= eq ->
  forall (a b g : num) kpp (c : center ar_num) p samples lines,
  construct low prograde eq pol a b g (Num kpp : ar_num) c = Ok p ->
  map_size samples lines -> (0 < samples)%Z -> (0 < lines)%Z ->
  exists ra rb rg phi lam pa k sc lc calls o, a = Num ra /\ b = Num rb /\ g = Num rg /\
    view_of eq pol prograde ra rb rg kpp c samples lines phi lam pa k sc lc /\
    map_of low prograde eq pol p samples lines = (calls, Ok o) /\
    (eq = pol \/ phi = 0 \/ phi = PI / 2 \/ phi = - (PI / 2) ->
     forall j i, (0 <= j < lines)%Z -> (0 <= i < samples)%Z ->
      let x := km k sc (IZR i + 1 / 2) in let z := km k lc (IZR j + 1 / 2) in
      forall q, plotted samples calls j i q -> exists lat lon P, q = (Num lat : ar_num, Num lon : ar_num) /\
        - (PI / 2) <= lat <= PI / 2 /\ is_vec 3 P /\ on_spheroid eq pol P /\
        has_position prograde P lat lon /\ projects_to prograde phi lam pa P x z /\ facing eq pol prograde phi lam P).
Proof. exact cells_surface. Qed.
Print Assumptions C52_surface_partial.

Example C52_surface_case : has_position true [0; 2; 0] 0 (- (PI / 2)) /\ facing 2 1 true 0 (- (PI / 2)) [0; 2; 0].
Proof.
  split.
  - exists 2. split; [lra|]. unfold spherical, east. rewrite Ropp_involutive, cos_PI2, sin_PI2, cos_0, sin_0. f_equal; [ring|f_equal; [ring|f_equal; ring]].
  - unfold facing, inner, gradient, toward, spherical, east, vget. cbn [sum_to nth].
    rewrite Ropp_involutive, cos_PI2, sin_PI2, cos_0, sin_0. lra.
Qed.

(** Refutation of C52 for every tilted view of an oblate body: unless the cell lies on
    the line through the center at right angles to the axis, or the surface point
    over it in the plane through the center, no surface point at the plotted
    latitude and longitude projects to the cell. *)
Theorem C52_tilted_refuted : forall low prograde eq pol, 0 < pol -> pol <= eq ->
  forall (a b g : num) kpp (c : center ar_num) p samples lines, pol < eq ->
  construct low prograde eq pol a b g (Num kpp : ar_num) c = Ok p ->
  map_size samples lines -> (0 < samples)%Z -> (0 < lines)%Z ->
  exists ra rb rg phi lam pa k sc lc calls o, a = Num ra /\ b = Num rb /\ g = Num rg /\
    view_of eq pol prograde ra rb rg kpp c samples lines phi lam pa k sc lc /\
    map_of low prograde eq pol p samples lines = (calls, Ok o) /\
    (phi <> 0 -> phi <> PI / 2 -> phi <> - (PI / 2) ->
     forall j i, (0 <= j < lines)%Z -> (0 <= i < samples)%Z ->
      let x := km k sc (IZR i + 1 / 2) in let z := km k lc (IZR j + 1 / 2) in
      x * sin pa <> z * cos pa ->
      (forall P, is_vec 3 P -> on_spheroid eq pol P -> projects_to prograde phi lam pa P x z -> inner 3 P (toward prograde phi lam) <> 0) ->
      forall q, plotted samples calls j i q -> exists lat lon, q = (Num lat : ar_num, Num lon : ar_num) /\
        forall P, is_vec 3 P -> on_spheroid eq pol P -> has_position prograde P lat lon -> ~ projects_to prograde phi lam pa P x z).
Proof. exact cells_tilted. Qed.
Print Assumptions C52_tilted_refuted.

Example C52_tilted_case : forall low, exists p lam calls o lat lon,
  construct low true 2 1 (Num 45 : ar_num) (Num 0 : ar_num) (Num 0 : ar_num) (Num 1 : ar_num)
    (center_given (A := ar_num) (Num (1 / 2) : ar_num) (Num 0 : ar_num)) = Ok p /\
  same_direction lam 0 /\
  map_of low true 2 1 p 1%Z 1%Z = (calls, Ok o) /\
  plotted 1 calls 0 0 (Num lat : ar_num, Num lon : ar_num) /\
  (exists P, is_vec 3 P /\ on_spheroid 2 1 P /\ projects_to true (PI / 4) lam 0 P 0 (1 / 2)) /\
  forall P, is_vec 3 P -> on_spheroid 2 1 P -> has_position true P lat lon -> ~ projects_to true (PI / 4) lam 0 P 0 (1 / 2).
Proof. exact tilted_witness. Qed.

(** C85: the constructor without a requested center point accepts exactly latitudes
    in [-90, 90] and longitudes and position angles in [-360, 360]. *)
Theorem C85_accepts : forall low prograde eq pol (a b g kpp : num) (c : center ar_num),
  (forall la lo, c <> lat_lon_given la lo) ->
  (exists p ra rb rg, construct low prograde eq pol a b g kpp c = Ok p /\ a = Num ra /\ b = Num rb /\ g = Num rg /\
     -90 <= ra <= 90 /\ -360 <= rb <= 360 /\ -360 <= rg <= 360) \/
  (construct low prograde eq pol a b g kpp c = Throw invalid_argument /\
   ~ exists ra rb rg, a = Num ra /\ b = Num rb /\ g = Num rg /\ -90 <= ra <= 90 /\ -360 <= rb <= 360 /\ -360 <= rg <= 360).
Proof. exact new_accepts. Qed.
Print Assumptions C85_accepts.

Example C85_case : forall low, exists p,
  construct low true 2 1 (Num 45 : ar_num) (Num 0 : ar_num) (Num 0 : ar_num) (Num 1 : ar_num)
    (center_given (A := ar_num) (Num (1 / 2) : ar_num) (Num 0 : ar_num)) = Ok p.
Proof. exact (fun low => match tilted_witness low with ex_intro _ p (ex_intro _ _ (ex_intro _ _ (ex_intro _ _ (ex_intro _ _ (ex_intro _ _ (conj H _)))))) => ex_intro _ p H end). Qed.

(** C86: a surface point with longitude in [0, 360] is accepted as the center of the
    map exactly when it is visible.  Missing: polar views, the poles themselves and
    negative longitudes, see the refutation. *)
Theorem C86_visible_partial : forall low prograde eq pol, 0 < pol -> pol <= eq ->
  forall a b g kpp lat lon P, Rabs a <= 90 - 1 / 1000000000000 -> -360 <= b <= 360 -> -360 <= g <= 360 ->
  -90 < lat < 90 -> 0 <= lon <= 360 ->
  is_vec 3 P -> has_position prograde P (radians lat) (radians lon) ->
  let r := construct low prograde eq pol (Num a : ar_num) (Num b : ar_num) (Num g : ar_num) kpp
             (lat_lon_given (Num lat : ar_num) (Num lon : ar_num)) in
  (facing eq pol prograde (radians a) (radians b) P -> exists p, r = Ok p) /\
  (~ facing eq pol prograde (radians a) (radians b) P -> r = Throw invalid_argument).
Proof. exact center_accepted. Qed.
Print Assumptions C86_visible_partial.

Example C86_case : has_position true [1; 0; 0] (radians 0) (radians 0) /\ facing 2 1 true (radians 0) (radians 0) [1; 0; 0] /\
  ~ facing 2 1 true (radians 0) (radians 180) [1; 0; 0].
Proof.
  unfold facing, has_position, inner, gradient, toward, spherical, east, vget, radians. cbn [sum_to nth].
  replace (180 * (PI / 180)) with PI by field.
  rewrite !Rmult_0_l, !Ropp_0, !sin_0, !cos_0, !cos_neg, !sin_neg, cos_PI, sin_PI. split; [|lra].
  exists 1. split; [lra|]. f_equal; [ring|f_equal; [ring|f_equal; ring]].
Qed.

(** Refutation of C86 for negative longitudes: seen from longitude 350 the point at
    latitude 0 and longitude -360 of a sphere is visible and rejected. *)
Theorem C86_visible_refuted : forall low prograde eq pol, 0 < pol -> pol <= eq ->
  forall P, eq = pol -> is_vec 3 P -> has_position prograde P 0 (radians (-360)) ->
  facing eq pol prograde 0 (radians 350) P /\
  forall kpp, construct low prograde eq pol (Num 0 : ar_num) (Num 350 : ar_num) (Num 0 : ar_num) kpp
    (lat_lon_given (Num 0 : ar_num) (Num (-360) : ar_num)) = Throw invalid_argument.
Proof. exact center_rejected. Qed.
Print Assumptions C86_visible_refuted.

Example C86_refuted_case : has_position true [1; 0; 0] 0 (radians (-360)).
Proof.
  exists 1. split; [lra|]. unfold spherical, east. replace (- radians (-360)) with (2 * PI) by (unfold radians; field).
  rewrite cos_0, sin_0, cos_2PI, sin_2PI. f_equal; [ring|f_equal; [ring|f_equal; ring]].
Qed.

(** C49 for doubles and any <cmath>: nothing outside the grid is written and the values
    are 0 and 255; the only other outcomes are a conversion to ssize_t out of range
    and a loop that does not end. *)
Theorem C49_orthographic_doubles : forall (L : libm ar_double) arccos prograde eq pol radius (p : ortho ar_double) samples lines,
  map_size samples lines -> forall fuel lat_interval lon_interval,
  match make_grid samples lines (ortho_plot_grid L arccos double_ssize prograde eq pol radius p fuel samples lines lat_interval lon_interval) with
  | None => True
  | Some (Ok g) => black_or_white (samples * lines) g
  | Some (UB u) => u = ub_conversion
  | Some (Throw _) => False
  end.
Proof.
  exact (fun L arccos pro eq pol radius p s l Hm fuel iv jv => ortho_safe L arccos double_ssize pro eq pol radius p s l Hm double_ssize_safe fuel iv jv).
Qed.
Print Assumptions C49_orthographic_doubles.

Example C49_orthographic_case : map_size 2 1 /\ black_or_white 2 [0; 255]%Z.
Proof. split; [unfold map_size; lia|]. split; [reflexivity|]. intros v [<-|[<-|[]]]; auto. Qed.

(** C87: the white cells are exactly those nearest to the visible points of the grid
    lines, for prograde bodies and for observers above longitude 0 or 180.
    Missing: retrograde bodies seen from elsewhere (refuted below), polar views and
    the points at the poles themselves. *)
Theorem C87_grid_partial : forall low prograde eq pol, 0 < pol -> pol <= eq ->
  forall (a b g : num) kpp (c : center ar_num) p samples lines iv jv,
  construct low prograde eq pol a b g (Num kpp : ar_num) c = Ok p ->
  map_size samples lines -> (0 < samples)%Z -> (0 < lines)%Z -> 0 < iv -> 0 < jv ->
  exists ra rb rg phi lam pa k sc lc, a = Num ra /\ b = Num rb /\ g = Num rg /\
    view_of eq pol prograde ra rb rg kpp c samples lines phi lam pa k sc lc /\
    (prograde = true \/ (exists z, rb = 180 * IZR z) -> Rabs ra <= 90 - 1 / 1000000000000 ->
     Rabs sc + eq / k < 2 ^ 62 -> Rabs lc + eq / k < 2 ^ 62 ->
     exists gr n0, (forall fuel, (n0 <= fuel)%nat -> grid_of low prograde eq pol p samples lines fuel iv jv = Some (Ok gr)) /\
       black_or_white (samples * lines) gr /\
       forall j i, (0 <= j < lines)%Z -> (0 <= i < samples)%Z ->
         (white_at samples gr j i <->
          exists n m, ((latitude_line iv n /\ step 0 360 2000 m) \/ (longitude_line jv m /\ step (-90) 180 1000 n)) /\
            Rabs n < 90 /\ marks_at eq pol prograde phi lam pa k sc lc n m m j i)).
Proof. exact ortho_grid_right. Qed.
Print Assumptions C87_grid_partial.

Example C87_case : latitude_line 30 0 /\ step 0 360 2000 90 /\ longitude_line 30 90 /\ step (-90) 180 1000 0.
Proof.
  repeat split.
  - exists 3%Z. split; [lia|]. split; lra.
  - exists 500%Z. split; [lia|]. lra.
  - exists 3%Z. split; [lia|]. split; lra.
  - exists 500%Z. split; [lia|]. lra.
Qed.

(** In general the latitude lines of a retrograde body are drawn at longitudes
    increased by twice that of the observer. *)
Theorem C87_grid_drawn : forall low prograde eq pol, 0 < pol -> pol <= eq ->
  forall (a b g : num) kpp (c : center ar_num) p samples lines iv jv,
  construct low prograde eq pol a b g (Num kpp : ar_num) c = Ok p ->
  map_size samples lines -> (0 < samples)%Z -> (0 < lines)%Z -> 0 < iv -> 0 < jv ->
  exists ra rb rg phi lam pa k sc lc, a = Num ra /\ b = Num rb /\ g = Num rg /\
    view_of eq pol prograde ra rb rg kpp c samples lines phi lam pa k sc lc /\
    (Rabs ra <= 90 - 1 / 1000000000000 -> Rabs sc + eq / k < 2 ^ 62 -> Rabs lc + eq / k < 2 ^ 62 ->
     exists gr n0, (forall fuel, (n0 <= fuel)%nat -> grid_of low prograde eq pol p samples lines fuel iv jv = Some (Ok gr)) /\
       black_or_white (samples * lines) gr /\
       forall j i, (0 <= j < lines)%Z -> (0 <= i < samples)%Z ->
         (white_at samples gr j i <->
          (exists n m, latitude_line iv n /\ Rabs n < 90 /\ step 0 360 2000 m /\
             marks_at eq pol prograde phi lam pa k sc lc n m (if prograde then m else m + 2 * rb) j i) \/
          (exists n m, longitude_line jv m /\ step (-90) 180 1000 n /\ Rabs n < 90 /\
             marks_at eq pol prograde phi lam pa k sc lc n m m j i))).
Proof. exact ortho_grid. Qed.
Print Assumptions C87_grid_drawn.

Example C87_drawn_case : exists n m : R, latitude_line 90 n /\ Rabs n < 90 /\ step 0 360 2000 m /\ m + 2 * 45 = 360.
Proof.
  exists 0, 270. split; [exists 1%Z; split; [lia|]; split; lra|]. rewrite Rabs_R0. split; [lra|]. split; [|lra].
  exists 1500%Z. split; [lia|lra].
Qed.

(** Refutation of C87: seen from longitude 45 of a retrograde body, no latitude line is
    drawn in the left half of the map; the visible point of the equator at longitude
    315 belongs to a cell that stays black. *)
Theorem C87_retrograde_refuted : forall low eq pol, 0 < pol -> pol <= eq ->
  forall samples lines iv jv, map_size samples lines -> (3 <= samples)%Z -> (3 <= lines)%Z -> 0 < iv -> 360 < jv ->
  latitude_line iv 0 ->
  exists p gr n0, construct low false eq pol (Num 0 : ar_num) (Num 45 : ar_num) (Num 0 : ar_num) (Num 0 : ar_num) (default_center (A := ar_num)) = Ok p /\
    (forall fuel, (n0 <= fuel)%nat -> grid_of low false eq pol p samples lines fuel iv jv = Some (Ok gr)) /\
    exists k sc lc, view_of eq pol false 0 45 0 0 (default_center (A := ar_num)) samples lines 0 (radians 45) 0 k sc lc /\
      (forall j i, (0 <= j < lines)%Z -> (0 <= i < samples)%Z -> white_at samples gr j i -> IZR samples / 2 < IZR i + 1 / 2) /\
      exists j i, (0 <= j < lines)%Z /\ (0 <= i < samples)%Z /\
        marks_at eq pol false 0 (radians 45) 0 k sc lc 0 315 315 j i /\ ~ white_at samples gr j i.
Proof. exact retro_grid. Qed.
Print Assumptions C87_retrograde_refuted.

Example C87_retrograde_case : map_size 100 50 /\ latitude_line 30 0 /\ step 0 360 2000 315.
Proof.
  split; [unfold map_size; lia|]. split.
  - exists 3%Z. split; [lia|]. split; lra.
  - exists 1750%Z. split; [lia|]. lra.
Qed.
