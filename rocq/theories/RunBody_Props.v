(** C117 to C121: the geometry of bodies in doubles and the planes made from it. *)
From Coq Require Import List ZArith Reals Bool String.
From Flocq Require Import Core BinarySingleNaN.
From Verif Require Import Base Flt Num LinAlg_Model Maths_Model Spheroid_Model Spheroid_Spec Extrema_Model MakeMap_Model MakeMap_Spec Proj_Model Proj_Spec Virtual_Model Virtual_Spec Params_Model
  Fits_Model Fits_Spec Command_Model Input_Model Entry_Model Parse_Model Parse_Spec Run_Model Run_Spec RunPlane_Proofs RunCase_Proofs Roots_Model Ortho_Model Ortho_Spec RunOrtho_Spec OrthoCase_Proofs
  Body_Model Body_Spec RunBody_Proofs BodyCase_Proofs.
Import ListNotations.
Open Scope R_scope.
#[local] Existing Instance prec53.
#[local] Existing Instance emax53.

(** C117: at points of bodies at most twice as wide as high, given to within [w],
    the radius, the planetographic latitude (that of the normal), the planetocentric
    latitude (the normal at which has the given one), and the cosines of the angles of
    emission, of incidence and of phase differ from those of the geometry by no more
    than stated.  The point is any on the surface in the given direction. *)
Theorem C117_body : forall L arctan (eq pol : double) w (la lo : double) rla rlo r,
  good_library L arctan -> body_size eq pol -> 0 <= w <= 1e-6 -> upon w la rla -> toward w lo rlo -> 0 < r ->
  let Re := B2R eq in let Rp := B2R pol in let p := spherical r rla rlo in on_spheroid Re Rp p ->
  nearly (double_radius L eq pol la) r ((7e-15 + 4 * w) * Re) /\
  (exists g, nearly (double_graphic L arctan eq pol la) g (3e-15 + 4 * w) /\ exists k, 0 < k /\ gradient Re Rp p = vscale (spherical 1 g rlo) k) /\
  (exists c r' k, nearly (double_centric L arctan eq pol la) c (3e-15 + 4 * w) /\ 0 < r' /\ 0 < k /\
   let p' := spherical r' c rlo in on_spheroid Re Rp p' /\ gradient Re Rp p' = vscale (spherical 1 rla rlo) k) /\
  (forall sla slo rsla rslo, toward w sla rsla -> toward w slo rslo ->
   nearly (double_mu0 L arctan eq pol sla slo la lo) (angle_cosine (gradient Re Rp p) (spherical 1 rsla rslo)) (2e-14 + 13 * w)) /\
  (forall ola olo rola rolo range, toward w ola rola -> toward w olo rolo -> distance range eq ->
   nearly (double_mu L arctan eq pol ola olo la lo range) (angle_cosine (gradient Re Rp p) (minus3 (spherical (B2R range) rola rolo) p)) (1e-12 + 500 * w)) /\
  (forall ola olo rola rolo sla slo rsla rslo range, toward w ola rola -> toward w olo rolo -> toward w sla rsla -> toward w slo rslo -> distance range eq ->
   nearly (double_cos_phase L eq pol ola olo sla slo la lo range)
     (angle_cosine (spherical 1 rsla rslo) (minus3 (spherical (B2R range) rola rolo) p)) (1e-12 + 500 * w)).
Proof. exact body_functions. Qed.
Print Assumptions C117_body.
(** The real functions, rounded, will do, and the Earth is such a body.  Series in
    doubles: at 45 degrees north on the Earth the normal is 0.19 degrees further
    north and the radius is 6367.5 km. *)
Example C117_case : good_library real_library real_arctan /\ body_size (double_of_Z 6378) (double_of_Z 6357) /\
  upon 0 (double_of_Z 1) 1 /\ toward 0 (double_of_Z 2) 2 /\ distance (double_of_Z 100000) (double_of_Z 6378) /\
  let g := double_graphic series_library atan_series (double_of_Z 6378) (double_of_Z 6357) (Bmult mode_NE (double_of_Z 45) d_degree) in
  flt (Bdiv mode_NE (double_of_Z 45188) (double_of_Z 1000)) (Bdiv mode_NE g d_degree) = true /\ flt (Bdiv mode_NE g d_degree) (Bdiv mode_NE (double_of_Z 45190) (double_of_Z 1000)) = true.
Proof. exact body_case. Qed.

(** C118: whatever the projection, where the point plotted in a cell is within [off]
    of a point of the surface, the elements of the planes MU, MU0 and PHASE stand for
    the cosines of the geometry at that point, to within the stated errors. *)
Theorem C118_cosines : forall X arctan fuel status left_over removable m c w w' r j f pl,
  ieee X -> good_library (x_libm X) arctan -> spheroids X arctan ->
  (forall n, status n = 0%Z) -> from_input X m -> fits_size m -> accurate (x_scale X) ->
  command_of X fuel m = Some c -> execute status left_over removable c w = (w', Ok r) ->
  nth_error (mc_images m) j = Some f -> if_limits f = ex_empty -> cosine_plane (if_source f) = Some pl ->
  exists params t axes cards d rest o,
    populate_map_parameters (map (parameters_of X) (mc_images m)) (mc_params m) = Ok params /\
    type_of_bitpix (p_bitpix params) = Some t /\
    w_file w' = new_file (Hdu t axes cards d :: rest) /\
    calls_of X (mc_projection m) (mc_samples m) (mc_lines m) = (c_calls c, Ok o) /\
    forall k i q, (0 <= k < mc_lines m)%Z -> (0 <= i < mc_samples m)%Z -> plotted (mc_samples m) (c_calls c) k i q ->
    forall off rla rlo far cosine e, 5e-15 <= off <= 1e-6 -> upon off (fst q) rla -> toward off (snd q) rlo -> 0 < far ->
    shows_cosine (spherical far rla rlo) off (if_source f) cosine e ->
    exists v y, d (element m (Z.of_nat j) k i) = Some (existT _ t v) /\
      stands_for t cards (Z.of_nat (List.length (mc_images m))) (Z.of_nat j + 1) v y /\ Rabs (y - cosine) <= tolerance t pl + e.
Proof.
  intros X arctan fuel status left_over removable m c w w' r j f pl I GL SP fine R.
  exact (cosines X arctan fuel status left_over removable m c w w' r j f pl I GL SP fine (input_ready X m R)).
Qed.
Print Assumptions C118_cosines.
(** A program of the kind. *)
Example C118_case : ieee real_program /\ good_library (x_libm real_program) real_arctan /\ spheroids real_program real_arctan /\ accurate (x_scale real_program).
Proof. split; [exact real_ieee|]. split; [exact good_1|]. split; [exact real_spheroids|exact the_scale_accurate]. Qed.

(** C119: the elements of the planes MU, MU0 and PHASE of simple cylindrical maps
    stand for the cosines at the points in the middles of the cells. *)
Theorem C119_cylindrical : forall X arctan fuel status left_over removable m c w w' r j f pl b lo hi lo' hi',
  ieee X -> good_library (x_libm X) arctan -> spheroids X arctan ->
  (forall n, status n = 0%Z) -> from_input X m -> fits_size m -> accurate (x_scale X) ->
  command_of X fuel m = Some c -> execute status left_over removable c w = (w', Ok r) ->
  mc_projection m = SimpleCylindrical b lo hi lo' hi' false -> IZR (mc_lines m) * 1e-9 <= Rabs (B2R hi - B2R lo) ->
  (B2R lo' = B2R hi' \/ 1e-9 <= Rabs (B2R hi' - B2R lo')) -> (mc_samples m < 2 ^ 52)%Z ->
  nth_error (mc_images m) j = Some f -> if_limits f = ex_empty -> cosine_plane (if_source f) = Some pl ->
  exists params t axes cards d rest,
    populate_map_parameters (map (parameters_of X) (mc_images m)) (mc_params m) = Ok params /\
    type_of_bitpix (p_bitpix params) = Some t /\
    w_file w' = new_file (Hdu t axes cards d :: rest) /\
    forall k i, (0 <= k < mc_lines m)%Z -> (0 <= i < mc_samples m)%Z ->
    forall far cosine e, 0 < far ->
    shows_cosine (spherical far (radians (middle_latitude (B2R lo) (B2R hi) k (mc_lines m))) (radians (middle_longitude (prograde b) (B2R lo') (B2R hi') i (mc_samples m))))
      1e-13 (if_source f) cosine e ->
    exists v y, d (element m (Z.of_nat j) k i) = Some (existT _ t v) /\
      stands_for t cards (Z.of_nat (List.length (mc_images m))) (Z.of_nat j + 1) v y /\ Rabs (y - cosine) <= tolerance t pl + e.
Proof.
  intros X arctan fuel status left_over removable m c w w' r j f pl b lo hi lo' hi' I GL SP fine R.
  exact (cylindrical_cosines X arctan fuel status left_over removable m c w w' r j f pl b lo hi lo' hi' I GL SP fine (input_ready X m R)).
Qed.
Print Assumptions C119_cylindrical.
(** The Earth seen from 100000 km above the equator and lit from the same direction,
    10000 steps to 1, at longitudes 315, 225, 135 and 45, south and north; the
    functions are series in doubles. *)
Example C119_case :
  series_run (T_mu seen_from far_away None) =
    Some [None; Some 3489; Some (-6174); Some (-4554); Some 5325; Some 3489; Some (-6174); Some (-4554); Some 5325; None]%Z /\
  series_run (T_mu0 None seen_from) =
    Some [None; Some 4042; Some (-5773); Some (-4042); Some 5773; Some 4042; Some (-5773); Some (-4042); Some 5773; None]%Z /\
  series_run (T_phase seen_from far_away seen_from) =
    Some [None; Some 9982; Some 9987; Some 9983; Some 9985; Some 9982; Some 9987; Some 9983; Some 9985; None]%Z.
Proof. split; [vm_compute; reflexivity|]. split; vm_compute; reflexivity. Qed.

(** C120: the elements of planes of planetographic latitudes of simple cylindrical
    maps stand for the latitudes of the normals at the points in the middles of the
    cells. *)
Theorem C120_graphic : forall X arctan fuel status left_over removable m c w w' r j f b lo hi lo' hi' b',
  ieee X -> good_library (x_libm X) arctan -> spheroids X arctan ->
  (forall n, status n = 0%Z) -> from_input X m -> fits_size m -> accurate (x_scale X) ->
  command_of X fuel m = Some c -> execute status left_over removable c w = (w', Ok r) ->
  mc_projection m = SimpleCylindrical b lo hi lo' hi' false -> IZR (mc_lines m) * 1e-9 <= Rabs (B2R hi - B2R lo) ->
  (B2R lo' = B2R hi' \/ 1e-9 <= Rabs (B2R hi' - B2R lo')) -> (mc_samples m < 2 ^ 52)%Z ->
  nth_error (mc_images m) j = Some f -> if_limits f = ex_empty -> if_source f = F_latitude b' true -> size_of b' ->
  exists params t axes cards d rest,
    populate_map_parameters (map (parameters_of X) (mc_images m)) (mc_params m) = Ok params /\
    type_of_bitpix (p_bitpix params) = Some t /\
    w_file w' = new_file (Hdu t axes cards d :: rest) /\
    forall k i, (0 <= k < mc_lines m)%Z -> (0 <= i < mc_samples m)%Z ->
    exists v y g, d (element m (Z.of_nat j) k i) = Some (existT _ t v) /\
      stands_for t cards (Z.of_nat (List.length (mc_images m))) (Z.of_nat j + 1) v y /\ Rabs (y - g) <= tolerance t latitude_plane + 3e-12 /\
      forall far rlo, 0 < far -> let p := spherical far (radians (middle_latitude (B2R lo) (B2R hi) k (mc_lines m))) rlo in
      on_spheroid (real_eq b') (real_pol b') p -> exists n, 0 < n /\ gradient (real_eq b') (real_pol b') p = vscale (spherical 1 (radians g) rlo) n.
Proof.
  intros X arctan fuel status left_over removable m c w w' r j f b lo hi lo' hi' b' I GL SP fine R.
  exact (cylindrical_graphic X arctan fuel status left_over removable m c w w' r j f b lo hi lo' hi' b' I GL SP fine (input_ready X m R)).
Qed.
Print Assumptions C120_graphic.
(** 45.18 degrees, 100 steps to the degree. *)
Example C120_case :
  series_run (T_latitude (Some Graphic)) =
    Some [None; Some (-4518); Some (-4518); Some (-4518); Some (-4518); Some 4518; Some 4518; Some 4518; Some 4518; None]%Z.
Proof. vm_compute. reflexivity. Qed.

(** C121: the elements of the planes MU, MU0 and PHASE of orthographic maps, for the
    views of C116, stand for the cosines at a point of the body seen in the middle of
    the cell, or are blank and the middle of the cell lies off the disk. *)
Theorem C121_orthographic : forall X arctan fuel status left_over removable m c w w' r j f pl (b : body) sub_lat sub_lon position kpp c0,
  ieee X -> close_library (x_libm X) -> good_library (x_libm X) arctan -> (forall p q r, x_roots X p q r = double_roots p q r) -> spheroids X arctan ->
  (forall n, status n = 0%Z) -> from_input X m -> fits_size m -> accurate (x_scale X) ->
  command_of X fuel m = Some c -> execute status left_over removable c w = (w', Ok r) ->
  mc_projection m = Orthographic b sub_lat sub_lon position kpp c0 ->
  let eq := Spheroid_Model.eq_rad b in let pol := Spheroid_Model.pol_rad b in
  plain_view eq pol sub_lat kpp c0 -> (mc_lines m < 2 ^ 52)%Z -> (mc_samples m < 2 ^ 52)%Z ->
  nth_error (mc_images m) j = Some f -> if_limits f = ex_empty -> cosine_plane (if_source f) = Some pl ->
  exists phi lam pa k sc lc, sees sub_lat sub_lon position phi lam pa /\
  resolution (B2R eq) (B2R kpp) (mc_samples m) (mc_lines m) k /\ center_at c0 (mc_samples m) (mc_lines m) sc lc /\
  exists params t axes cards d rest,
    populate_map_parameters (map (parameters_of X) (mc_images m)) (mc_params m) = Ok params /\
    type_of_bitpix (p_bitpix params) = Some t /\
    w_file w' = new_file (Hdu t axes cards d :: rest) /\
    forall line i, (0 <= line < mc_lines m)%Z -> (0 <= i < mc_samples m)%Z ->
    let x := km k sc (IZR i + / 2) in let z := km k lc (IZR line + / 2) in
    exists v, d (element m (Z.of_nat j) line i) = Some (existT _ t v) /\
     ((blank_of t (p_blank params) = Some v /\ 1 - 1e-12 <= outline (B2R eq) (B2R pol) pa x z) \/
      exists lat lon, is_seen (B2R eq) (B2R pol) (prograde b) phi lam pa x z lat lon /\
       forall far cosine e, 0 < far -> shows_cosine (spherical far lat lon) 1e-14 (if_source f) cosine e ->
       exists y, stands_for t cards (Z.of_nat (List.length (mc_images m))) (Z.of_nat j + 1) v y /\ Rabs (y - cosine) <= tolerance t pl + e).
Proof.
  intros X arctan fuel status left_over removable m c w w' r j f pl b sub_lat sub_lon position kpp c0 I CL GL Rt SP fine R.
  exact (orthographic_cosines X arctan fuel status left_over removable m c w w' r j f pl b sub_lat sub_lon position kpp c0 I CL GL Rt SP fine (input_ready X m R)).
Qed.
Print Assumptions C121_orthographic.
(** The two kinds of libraries have one in common.  The cells of C116's case, lit
    from 10 degrees west of the prime meridian. *)
Example C121_case : close_library real_library /\ good_library real_library real_arctan /\
  plain_view (double_of_Z 6378) (double_of_Z 6378) (double_of_Z 40) (double_of_Z (-1)) default_center /\
  series_ortho true None (T_mu0 None seen_from) =
    Some [None; Some 0; Some 7057; Some 5127; Some 0; Some 0; Some 7057; Some 5127; Some 0; None]%Z.
Proof. split; [exact real_close|]. split; [exact good_1|]. split; [exact plain_case|]. vm_compute. reflexivity. Qed.
