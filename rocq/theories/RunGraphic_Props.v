(** C123 to C125: maps and planes of planetographic latitudes. *)
From Coq Require Import List ZArith Reals Bool String.
From Flocq Require Import Core BinarySingleNaN.
From Verif Require Import Base Flt Num LinAlg_Model Maths_Model Spheroid_Model Spheroid_Spec Extrema_Model MakeMap_Model MakeMap_Spec Proj_Model Proj_Spec Virtual_Model Virtual_Spec Params_Model
  Fits_Model Fits_Spec Command_Model Input_Model Entry_Model Parse_Model Parse_Spec Run_Model Run_Spec RunPlane_Proofs RunCase_Proofs Roots_Model Ortho_Model Ortho_Spec RunOrtho_Spec OrthoCase_Proofs
  Body_Model Body_Spec BodyCase_Proofs RunGraphic_Spec RunGraphic_Proofs.
Import ListNotations.
Open Scope R_scope.

(** C123: the lines of maps of planetographic latitudes are evenly spaced in the
    latitude of the normal, and the elements of planes of latitudes stand for the
    latitude, of either kind, of the point whose normal is at the middle of the line. *)
Theorem C123_latitudes : forall X arctan fuel status left_over removable m c w w' r j f b lo hi lo' hi' b' kind,
  ieee X -> good_library (x_libm X) arctan -> spheroids X arctan ->
  (forall n, status n = 0%Z) -> from_input X m -> fits_size m -> accurate (x_scale X) ->
  command_of X fuel m = Some c -> execute status left_over removable c w = (w', Ok r) ->
  mc_projection m = SimpleCylindrical b lo hi lo' hi' true -> size_of b -> IZR (mc_lines m) * 1e-9 <= Rabs (B2R hi - B2R lo) ->
  (B2R lo' = B2R hi' \/ 1e-9 <= Rabs (B2R hi' - B2R lo')) -> (mc_samples m < 2 ^ 52)%Z ->
  nth_error (mc_images m) j = Some f -> if_limits f = ex_empty -> if_source f = F_latitude b' kind -> size_of b' ->
  exists params t axes cards d rest,
    populate_map_parameters (map (parameters_of X) (mc_images m)) (mc_params m) = Ok params /\
    type_of_bitpix (p_bitpix params) = Some t /\
    w_file w' = new_file (Hdu t axes cards d :: rest) /\
    forall k i, (0 <= k < mc_lines m)%Z -> (0 <= i < mc_samples m)%Z ->
    forall g1 g2 lat, normal_latitude b (radians (B2R lo)) g1 -> normal_latitude b (radians (B2R hi)) g2 ->
    normal_latitude b lat (middle_latitude g1 g2 k (mc_lines m)) ->
    forall g, (if kind then normal_latitude b' lat (radians g) else lat = radians g) ->
    exists v y, d (element m (Z.of_nat j) k i) = Some (existT _ t v) /\
      stands_for t cards (Z.of_nat (List.length (mc_images m))) (Z.of_nat j + 1) v y /\ Rabs (y - g) <= tolerance t latitude_plane + 4e-11.
Proof.
  intros X arctan fuel status left_over removable m c w w' r j f b lo hi lo' hi' b' kind I GL SP fine R.
  exact (graphic_latitudes X arctan fuel status left_over removable m c w w' r j f b lo hi lo' hi' b' kind I GL SP fine (input_ready X m R)).
Qed.
Print Assumptions C123_latitudes.
(** Every latitude has one of its normals, and every latitude is that of some normal. *)
Theorem C123_normal : forall b, size_of b ->
  (forall lat, - (PI / 2) <= lat <= PI / 2 -> exists g, normal_latitude b lat g /\ forall g', normal_latitude b lat g' -> g' = g) /\
  (forall g, - (PI / 2) <= g <= PI / 2 -> exists lat, normal_latitude b lat g).
Proof. intros b S. exact (conj (fun lat => normal_one b lat S) (fun g => normal_onto b g S)). Qed.
Print Assumptions C123_normal.
(** The longitudes are evenly spaced, as those of planetocentric maps (C103). *)
Theorem C123_longitudes : forall X fuel status left_over removable m c w w' r j f b lo hi lo' hi',
  ieee X -> (forall n, status n = 0%Z) -> from_input X m -> fits_size m -> accurate (x_scale X) ->
  command_of X fuel m = Some c -> execute status left_over removable c w = (w', Ok r) ->
  mc_projection m = SimpleCylindrical b lo hi lo' hi' true ->
  (B2R lo' = B2R hi' \/ 1e-9 <= Rabs (B2R hi' - B2R lo')) -> (mc_samples m < 2 ^ 52)%Z ->
  nth_error (mc_images m) j = Some f -> if_limits f = ex_empty -> if_source f = F_longitude ->
  exists params t axes cards d rest,
    populate_map_parameters (map (parameters_of X) (mc_images m)) (mc_params m) = Ok params /\
    type_of_bitpix (p_bitpix params) = Some t /\
    w_file w' = new_file (Hdu t axes cards d :: rest) /\
    forall k i, (0 <= k < mc_lines m)%Z -> (0 <= i < mc_samples m)%Z ->
    exists v y z, d (element m (Z.of_nat j) k i) = Some (existT _ t v) /\
      stands_for t cards (Z.of_nat (List.length (mc_images m))) (Z.of_nat j + 1) v y /\
      - tolerance t longitude_plane <= y <= 360 + tolerance t longitude_plane /\
      Rabs (y - (middle_longitude (prograde b) (B2R lo') (B2R hi') i (mc_samples m) + 360 * IZR z)) <= tolerance t longitude_plane + 1e-11.
Proof.
  intros X fuel status left_over removable m c w w' r j f b lo hi lo' hi' E fine I.
  exact (graphic_longitudes X fuel status left_over removable m c w w' r j f b lo hi lo' hi' E fine (input_ready X m I)).
Qed.
Print Assumptions C123_longitudes.
(** From 60 degrees (planetocentric) south to north on the Earth, 100 steps to the
    degree: the normals at the ends are at 60.16 degrees and those of the lines at
    30.08; the points of the lines are at 29.91.  *)
Definition graphic_map (p : plane_type) : map_entry :=
  MapEntry "map.fits" None None [] [] "Earth" (given_radii (A := ar_double) (double_of_Z 6378) (double_of_Z 6357)) true
    None None (Some 16%Z) None None
    (T_simple_c (Some (None, Some Graphic, Some (lo_hi_lat (LatEntry (double_of_Z (-60)) no_hemisphere Centric) (LatEntry (double_of_Z 60) no_hemisphere Centric)), None)))
    None (digit 4) (digit 2) (PlaneEntry None no_range p) [].
Example C123_case :
  first_run series_program (graphic_map (T_latitude (Some Graphic))) the_cells =
    Some [None; Some (-3008); Some (-3008); Some (-3008); Some (-3008); Some 3008; Some 3008; Some 3008; Some 3008; None]%Z /\
  first_run series_program (graphic_map (T_latitude (Some Centric))) the_cells =
    Some [None; Some (-2991); Some (-2991); Some (-2991); Some (-2991); Some 2991; Some 2991; Some 2991; Some 2991; None]%Z /\
  first_run series_program (graphic_map T_longitude) the_cells =
    Some [None; Some 13500; Some 4500; Some (-4500); Some (-13500); Some 13500; Some 4500; Some (-4500); Some (-13500); None]%Z.
Proof. split; [|split]; vm_compute; reflexivity. Qed.

(** C124: the elements of the planes MU, MU0 and PHASE of these maps stand for the
    cosines at the points whose normals are at the middles of the lines. *)
Theorem C124_cosines : forall X arctan fuel status left_over removable m c w w' r j f pl b lo hi lo' hi',
  ieee X -> good_library (x_libm X) arctan -> spheroids X arctan ->
  (forall n, status n = 0%Z) -> from_input X m -> fits_size m -> accurate (x_scale X) ->
  command_of X fuel m = Some c -> execute status left_over removable c w = (w', Ok r) ->
  mc_projection m = SimpleCylindrical b lo hi lo' hi' true -> size_of b -> IZR (mc_lines m) * 1e-9 <= Rabs (B2R hi - B2R lo) ->
  (B2R lo' = B2R hi' \/ 1e-9 <= Rabs (B2R hi' - B2R lo')) -> (mc_samples m < 2 ^ 52)%Z ->
  nth_error (mc_images m) j = Some f -> if_limits f = ex_empty -> cosine_plane (if_source f) = Some pl ->
  exists params t axes cards d rest,
    populate_map_parameters (map (parameters_of X) (mc_images m)) (mc_params m) = Ok params /\
    type_of_bitpix (p_bitpix params) = Some t /\
    w_file w' = new_file (Hdu t axes cards d :: rest) /\
    forall k i, (0 <= k < mc_lines m)%Z -> (0 <= i < mc_samples m)%Z ->
    forall g1 g2 lat, normal_latitude b (radians (B2R lo)) g1 -> normal_latitude b (radians (B2R hi)) g2 ->
    normal_latitude b lat (middle_latitude g1 g2 k (mc_lines m)) ->
    forall far cosine e, 0 < far ->
    shows_cosine (spherical far lat (radians (middle_longitude (prograde b) (B2R lo') (B2R hi') i (mc_samples m)))) 1.5e-13 (if_source f) cosine e ->
    exists v y, d (element m (Z.of_nat j) k i) = Some (existT _ t v) /\
      stands_for t cards (Z.of_nat (List.length (mc_images m))) (Z.of_nat j + 1) v y /\ Rabs (y - cosine) <= tolerance t pl + e.
Proof.
  intros X arctan fuel status left_over removable m c w w' r j f pl b lo hi lo' hi' I GL SP fine R.
  exact (graphic_cosines X arctan fuel status left_over removable m c w w' r j f pl b lo hi lo' hi' I GL SP fine (input_ready X m R)).
Qed.
Print Assumptions C124_cosines.
(** The same map, 10000 steps to 1. *)
Example C124_case :
  first_run series_program (graphic_map (T_mu0 None seen_from)) the_cells =
    Some [None; Some 4963; Some (-7088); Some (-4963); Some 7088; Some 4963; Some (-7088); Some (-4963); Some 7088; None]%Z /\
  first_run series_program (graphic_map (T_mu seen_from far_away None)) the_cells =
    Some [None; Some 4460; Some (-7384); Some (-5420); Some 6749; Some 4460; Some (-7384); Some (-5420); Some 6749; None]%Z.
Proof. split; vm_compute; reflexivity. Qed.

(** C125: the elements of planes of planetographic latitudes of orthographic maps
    stand for the latitudes of the normals at the points seen. *)
Theorem C125_orthographic : forall X arctan fuel status left_over removable m c w w' r j f (b : body) sub_lat sub_lon position kpp c0 b',
  ieee X -> close_library (x_libm X) -> good_library (x_libm X) arctan -> (forall p q r, x_roots X p q r = double_roots p q r) -> spheroids X arctan ->
  (forall n, status n = 0%Z) -> from_input X m -> fits_size m -> accurate (x_scale X) ->
  command_of X fuel m = Some c -> execute status left_over removable c w = (w', Ok r) ->
  mc_projection m = Orthographic b sub_lat sub_lon position kpp c0 ->
  let eq := Spheroid_Model.eq_rad b in let pol := Spheroid_Model.pol_rad b in
  plain_view eq pol sub_lat kpp c0 -> (mc_lines m < 2 ^ 52)%Z -> (mc_samples m < 2 ^ 52)%Z ->
  nth_error (mc_images m) j = Some f -> if_limits f = ex_empty -> if_source f = F_latitude b' true -> size_of b' ->
  exists phi lam pa k sc lc, sees sub_lat sub_lon position phi lam pa /\
  resolution (B2R eq) (B2R kpp) (mc_samples m) (mc_lines m) k /\ center_at c0 (mc_samples m) (mc_lines m) sc lc /\
  exists params t axes cards d rest,
    populate_map_parameters (map (parameters_of X) (mc_images m)) (mc_params m) = Ok params /\
    type_of_bitpix (p_bitpix params) = Some t /\
    w_file w' = new_file (Hdu t axes cards d :: rest) /\
    forall line i, (0 <= line < mc_lines m)%Z -> (0 <= i < mc_samples m)%Z ->
    let x := km k sc (IZR i + / 2) in let z := km k lc (IZR line + / 2) in
    exists v, d (element m (Z.of_nat j) line i) = Some (existT _ t v) /\
     ((blank_of t (p_blank params) = Some v /\ 1 - 1e-12 <= outline (B2R eq) (B2R pol) pa x z) \/
      exists lat lon, is_seen (B2R eq) (B2R pol) (prograde b) phi lam pa x z lat lon /\
       forall g, normal_latitude b' lat (radians g) ->
       exists y, stands_for t cards (Z.of_nat (List.length (mc_images m))) (Z.of_nat j + 1) v y /\ Rabs (y - g) <= tolerance t latitude_plane + 3e-12).
Proof.
  intros X arctan fuel status left_over removable m c w w' r j f b sub_lat sub_lon position kpp c0 b' I CL GL Rt SP fine R.
  exact (orthographic_graphic X arctan fuel status left_over removable m c w w' r j f b sub_lat sub_lon position kpp c0 b' I CL GL Rt SP fine (input_ready X m R)).
Qed.
Print Assumptions C125_orthographic.
(** The Earth from above the equator, 100 steps to the degree: normals at 33.96
    degrees and points at 33.78. *)
Definition ortho_earth (p : plane_type) : map_entry :=
  MapEntry "map.fits" None None [] [] "Earth" (given_radii (A := ar_double) (double_of_Z 6378) (double_of_Z 6357)) true
    None None (Some 16%Z) None None (T_ortho None) None (digit 4) (digit 2) (PlaneEntry None no_range p) [].
Example C125_case :
  first_run series_program (ortho_earth (T_latitude (Some Graphic))) the_cells =
    Some [None; Some 0; Some (-3396); Some (-3396); Some 0; Some 0; Some 3396; Some 3396; Some 0; None]%Z /\
  first_run series_program (ortho_earth (T_latitude (Some Centric))) the_cells =
    Some [None; Some 0; Some (-3378); Some (-3378); Some 0; Some 0; Some 3378; Some 3378; Some 0; None]%Z.
Proof. split; vm_compute; reflexivity. Qed.
