(** C114: the elements of polar stereographic maps. *)
From Coq Require Import List ZArith Reals Bool String.
From Flocq Require Import Core BinarySingleNaN.
From Verif Require Import Base Flt Num Maths_Model Spheroid_Model Extrema_Model MakeMap_Model Proj_Model Virtual_Model Virtual_Spec Params_Model Fits_Model
  Command_Model Input_Model Entry_Model Parse_Model Parse_Spec Run_Model Run_Spec RunCase_Proofs RunMercator_Proofs RunGrid_Spec RunPolar_Spec RunPolar_Proofs.
Import ListNotations.
Open Scope R_scope.

(** C114: the longitude of a cell is the argument of its offset from the middle of
    the map; the latitude is the one found for the distance of the cell from the
    middle, in units in which half the smaller side of the map is the radius of
    the given edge latitude. *)
Theorem C114_polar : forall X fuel status left_over removable u d0 ts cmds n e o,
  ieee X -> (forall n, status n = 0%Z) -> accurate (x_scale X) -> in_force u d0 ->
  unmixed ts -> commands_of X (texts u ts) = Ok (Some cmds) ->
  nth_error (maps_of ts) n = Some e -> me_projection e = T_p_stereo o ->
  exists m b, nth_error cmds n = Some m /\ body_spheroid (me_prograde e) (me_radii e) = Ok b /\
  forall c w w' r, fits_size m -> (mc_lines m < 2 ^ 52)%Z -> (mc_samples m < 2 ^ 52)%Z ->
  command_of X fuel m = Some c -> execute status left_over removable c w = (w', Ok r) ->
  forall j p, nth_error (me_plane e :: me_more_planes e) j = Some p -> limits_say d0 (pe_range p) = Some ex_empty ->
  (pe_type p = T_longitude ->
   exists t axes cards d rest, w_file w' = new_file (Hdu t axes cards d :: rest) /\
   forall k i, (0 <= k < mc_lines m)%Z -> (0 <= i < mc_samples m)%Z ->
   exists side up, is_number side (sideways (pole_says o) (prograde b) i (mc_samples m)) /\ is_number up (from_center k (mc_lines m)) /\
   let a : double := l_atan2 (x_libm X) side up in
   (is_finite a = true -> Rabs (B2R a) <= 4 ->
    exists v y z, d (element m (Z.of_nat j) k i) = Some (existT _ t v) /\
     stands_for t cards (Z.of_nat (List.length (mc_images m))) (Z.of_nat j + 1) v y /\
     - tolerance t longitude_plane <= y <= 360 + tolerance t longitude_plane /\
     Rabs (y - (B2R a / B2R d_degree + 360 * IZR z)) <= tolerance t longitude_plane + 1e-11)) /\
  (pe_type p = T_latitude None \/ pe_type p = T_latitude (Some Centric) ->
   exists edge t axes cards d rest, edge_says X b o edge /\ w_file w' = new_file (Hdu t axes cards d :: rest) /\
   let radius := stereo_rho_impl (A := ar_double) (x_libm X) (x_eccentricity X b)
                   (rho_coefficient (A := ar_double) (x_libm X) (Spheroid_Model.eq_rad b) (x_eccentricity X b)) in
   let rim : double := radius (seen_at (pole_says o) (x_graphic X b edge)) in
   forall k i, (0 <= k < mc_lines m)%Z -> (0 <= i < mc_samples m)%Z ->
   exists side up rho latg,
     is_number side (from_center i (mc_samples m)) /\ is_number up (from_center k (mc_lines m)) /\
     (let h : double := l_hypot (x_libm X) side up in
      is_finite rim = true -> 1e-3 <= B2R rim <= 1e12 -> is_finite h = true -> B2R h = 0 \/ / 4 <= B2R h <= 1e16 ->
      is_finite rho = true /\
      Rabs (B2R rho - cell_radius (B2R rim) (B2R h) (mc_samples m) (mc_lines m)) <=
        1e-15 * cell_radius (B2R rim) (B2R h) (mc_samples m) (mc_lines m)) /\
     x_find X rho (neg (A := ar_double) d_pi2) d_pi2 radius = Ok latg /\
     let lat := x_centric X b (seen_at (pole_says o) latg) in
     (is_finite lat = true -> Rabs (B2R lat) <= B2R d_pi2 ->
      exists v y, d (element m (Z.of_nat j) k i) = Some (existT _ t v) /\
       stands_for t cards (Z.of_nat (List.length (mc_images m))) (Z.of_nat j + 1) v y /\
       Rabs (y - B2R lat / B2R d_degree) <= tolerance t latitude_plane + 1e-12)).
Proof. exact polar_map. Qed.
Print Assumptions C114_polar.

(** 4 by 2 cells around the poles of a planet, with an arc tangent that is its
    first argument and a search that finds 1/2: the sideways offsets of -1.5, -0.5,
    0.5, 1.5 radians, and 28.64 degrees. *)
Example C114_case :
  ieee (finding the_program) /\ accurate (x_scale (finding the_program)) /\
  polar_run true true T_longitude =
    Some [None; Some 9405; Some 15135; Some (-15135); Some (-9405); Some 9405; Some 15135; Some (-15135); Some (-9405); None]%Z /\
  polar_run true false T_longitude =
    Some [None; Some (-9405); Some (-15135); Some 15135; Some 9405; Some (-9405); Some (-15135); Some 15135; Some 9405; None]%Z /\
  polar_run true true (T_latitude None) =
    Some [None; Some 2864; Some 2864; Some 2864; Some 2864; Some 2864; Some 2864; Some 2864; Some 2864; None]%Z /\
  polar_run true false (T_latitude None) =
    Some [None; Some (-2864); Some (-2864); Some (-2864); Some (-2864); Some (-2864); Some (-2864); Some (-2864); Some (-2864); None]%Z.
Proof.
  split; [exact finding_ieee|]. split; [exact the_scale_accurate|].
  split; [vm_compute; reflexivity|]. split; [vm_compute; reflexivity|]. split; vm_compute; reflexivity.
Qed.
