(** C50, C51: the projections with the real root finder. *)
From Coq Require Import List ZArith Reals.
From Flocq Require Import Core.
From Verif Require Import Base Num Spheroid_Model Proj_Model Proj_Spec ProjFind_Proofs.
Open Scope R_scope.

(** C50. The latitude of a cell is that of the point whose projection is the
    center of its line, up to a few roundings; or it is a pole up to a few
    roundings, where the slope of the projection cannot be estimated. *)
Theorem C50_found_partial : forall low high eq pol prograde samples lines, 0 < pol -> pol <= eq -> 0 < high ->
  map_size samples lines -> (0 < samples)%Z -> (0 < lines)%Z -> low < - (IZR lines / IZR samples * PI) ->
  forall calls o, mercator_plot_map (libm_pole PI low high) prograde (Num (first_eccentricity eq pol) : ar_num)
    (num_centric eq pol) num_find samples lines = (calls, o) ->
  forall k i p, (0 <= i < samples)%Z -> plotted samples calls k i p ->
    exists latg z, - (PI / 2) <= latg <= PI / 2 /\ - (PI / 2) < z < PI / 2 /\
      isometric_latitude (first_eccentricity eq pol) z = (IZR k + 1 / 2 - IZR lines / 2) * (2 * PI / IZR samples) /\
      p = (Num (centric_latitude eq pol latg) : ar_num,
           Num (if prograde then 2 * PI - (IZR i + 1 / 2) * (2 * PI / IZR samples)
                else (IZR i + 1 / 2) * (2 * PI / IZR samples)) : ar_num) /\
      (Rabs (latg - z) < 10 * bpow radix2 (-52) * (eq / pol) ^ 2 \/
       PI / 2 - Rabs latg < 18 * bpow radix2 (-52) * (eq / pol) ^ 2).
Proof. exact merc_near. Qed.
Print Assumptions C50_found_partial.

Example C50_found_case : exists calls o,
  mercator_plot_map (libm_pole PI (-7) (exp 1)) true (Num (first_eccentricity 1 1) : ar_num) (num_centric 1 1) num_find 2 1 = (calls, Ok o) /\
  plotted 2 calls 0 0 (Num (centric_latitude 1 1 0) : ar_num, Num (2 * PI - 1 / 2 * (2 * PI / 2)) : ar_num).
Proof. exact equator_drawn. Qed.

(** C51. *)
Theorem C51_found_partial : forall low high eq pol, 0 < pol -> pol <= eq -> 1 <= eq -> 0 < high ->
  forall prograde north samples lines, map_size samples lines -> (0 < samples)%Z -> (0 < lines)%Z ->
  forall (x : num) p, polar_new (libm_pole PI low high) (x : ar_num) north = Ok p ->
  forall calls o,
  polar_plot_map (libm_pole PI low high) prograde (Num eq : ar_num) (Num (first_eccentricity eq pol) : ar_num)
    (num_graphic eq pol) (num_centric eq pol) num_find p samples lines = (calls, o) ->
  exists d, (x = Num d \/ x = NaN /\ d = 0) /\
  forall k i q, (0 <= i < samples)%Z -> plotted samples calls k i q -> exists latg z lon,
    - (PI / 2) <= latg <= PI / 2 /\ - (PI / 2) < z <= PI / 2 /\
    stereographic_radius (first_eccentricity eq pol) z * IZR (Z.min samples lines) =
      2 * stereographic_radius (first_eccentricity eq pol)
            (if north then graphic_latitude eq pol (d * (PI / 180)) else - graphic_latitude eq pol (d * (PI / 180))) *
      from_center samples lines k i /\
    q = (Num (centric_latitude eq pol (if north then latg else - latg)) : ar_num, Num lon : ar_num) /\
    (Rabs (latg - z) < 98 * bpow radix2 (-52) * (eq / pol) ^ 4 \/
     PI / 2 + latg < 194 * bpow radix2 (-52) * (eq / pol) ^ 4) /\
    from_center samples lines k i * cos lon = along_line lines k /\
    from_center samples lines k i * sin lon = (if Bool.eqb north prograde then across samples i else - across samples i).
Proof. exact polar_built_near. Qed.
Print Assumptions C51_found_partial.

Example C51_found_case : exists p calls o, polar_new (libm_pole PI (-7) 1) (NaN : ar_num) true = Ok p /\
  polar_plot_map (libm_pole PI (-7) 1) true (Num 1 : ar_num) (Num (first_eccentricity 1 1) : ar_num)
    (num_graphic 1 1) (num_centric 1 1) num_find p 1 1 = (calls, Ok o) /\
  exists lon, plotted 1 calls 0 0 (Num (centric_latitude 1 1 (PI / 2)) : ar_num, lon).
Proof. exact pole_drawn. Qed.
