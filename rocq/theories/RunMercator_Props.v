(** C110: the elements of Mercator maps. *)
From Coq Require Import List ZArith Reals Bool String.
From Flocq Require Import Core BinarySingleNaN.
From Verif Require Import Base Flt Num Maths_Model Spheroid_Model Extrema_Model MakeMap_Model Proj_Model Virtual_Model Virtual_Spec Params_Model Fits_Model
  Command_Model Input_Model Entry_Model Parse_Model Parse_Spec Run_Model Run_Spec RunCase_Proofs RunMercator_Spec RunMercator_Proofs.
Import ListNotations.
Open Scope R_scope.

(** C110: longitudes go round the circle from the prime meridian, westward from
    360 degrees or eastward from 0; the latitude of a line is the one found for
    the distance of its middle from the equator, cells being square there. *)
Theorem C110_mercator : forall X fuel status left_over removable ts cmds n e o,
  ieee X -> l_pi (x_libm X) = d_pi -> (forall n, status n = 0%Z) -> accurate (x_scale X) ->
  unmixed ts -> commands_of X (texts None ts) = Ok (Some cmds) ->
  nth_error (maps_of ts) n = Some e -> me_projection e = T_mercator o ->
  exists m b, nth_error cmds n = Some m /\ body_spheroid (me_prograde e) (me_radii e) = Ok b /\
  forall c w w' r, fits_size m -> (mc_lines m < 2 ^ 52)%Z -> (mc_samples m < 2 ^ 52)%Z ->
  command_of X fuel m = Some c -> execute status left_over removable c w = (w', Ok r) ->
  forall j p, nth_error (me_plane e :: me_more_planes e) j = Some p -> pe_range p = no_range ->
  (pe_type p = T_longitude ->
   exists t axes cards d rest, w_file w' = new_file (Hdu t axes cards d :: rest) /\
   forall k i, (0 <= k < mc_lines m)%Z -> (0 <= i < mc_samples m)%Z ->
   exists v y z, d (element m (Z.of_nat j) k i) = Some (existT _ t v) /\
     stands_for t cards (Z.of_nat (List.length (mc_images m))) (Z.of_nat j + 1) v y /\
     - tolerance t longitude_plane <= y <= 360 + tolerance t longitude_plane /\
     Rabs (y - (circle_longitude (prograde b) i (mc_samples m) + 360 * IZR z)) <= tolerance t longitude_plane + 1e-11) /\
  (pe_type p = T_latitude None \/ pe_type p = T_latitude (Some Centric) ->
   exists t axes cards d rest, w_file w' = new_file (Hdu t axes cards d :: rest) /\
   forall k, (0 <= k < mc_lines m)%Z -> exists x latg,
     is_finite x = true /\
     Rabs (B2R x - line_ordinate k (mc_samples m) (mc_lines m)) <= 2e-14 * (IZR (mc_lines m) / IZR (mc_samples m)) /\
     x_find X x (neg (A := ar_double) d_pi2) d_pi2 (mercator_x (A := ar_double) (x_libm X) (x_eccentricity X b)) = Ok latg /\
     let lat := x_centric X b latg in
     is_finite lat = true -> Rabs (B2R lat) <= B2R d_pi2 ->
     forall i, (0 <= i < mc_samples m)%Z ->
     exists v y, d (element m (Z.of_nat j) k i) = Some (existT _ t v) /\
       stands_for t cards (Z.of_nat (List.length (mc_images m))) (Z.of_nat j + 1) v y /\
       Rabs (y - B2R lat / B2R d_degree) <= tolerance t latitude_plane + 1e-12).
Proof. exact mercator_map. Qed.
Print Assumptions C110_mercator.
(** Longitudes 45 to 315 degrees, less 180, at 100 steps to the degree; latitudes
    of a search that returns the ordinate, a quarter of pi. *)
Example C110_mercator_case : ieee (searching the_program) /\ l_pi (x_libm (searching the_program)) = d_pi /\
  accurate (x_scale (searching the_program)) /\
  mercator_run false T_longitude =
    Some [None; Some (-13500); Some (-4500); Some 4500; Some 13500; Some (-13500); Some (-4500); Some 4500; Some 13500; None]%Z /\
  mercator_run true T_longitude =
    Some [None; Some 13500; Some 4500; Some (-4500); Some (-13500); Some 13500; Some 4500; Some (-4500); Some (-13500); None]%Z /\
  mercator_run true (T_latitude None) =
    Some [None; Some (-4500); Some (-4500); Some (-4500); Some (-4500); Some 4500; Some 4500; Some 4500; Some 4500; None]%Z.
Proof.
  split; [exact searching_ieee|]. split; [reflexivity|]. split; [exact the_scale_accurate|].
  split; [vm_compute; reflexivity|]. split; vm_compute; reflexivity.
Qed.
