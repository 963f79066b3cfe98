(** C130: planes of angles of Mercator and polar stereographic maps, from the arguments
    of main() to the elements of files. *)
From Coq Require Import List ZArith Reals Bool String.
From Flocq Require Import Core BinarySingleNaN.
From Verif Require Import Base Flt Num LinAlg_Model Maths_Model Spheroid_Model Extrema_Model MakeMap_Model Proj_Model Virtual_Model Virtual_Spec Params_Model
  Fits_Model Command_Model Expr_Model Text_Model TextCases_Proofs Cli_Model Cli_Spec Input_Model Entry_Model View_Model Parse_Model Parse_Spec Run_Model Run_Spec RunGrid_Spec RunCase_Proofs RunMercator_Spec RunMercator_Proofs RunPolar_Spec RunPolar_Proofs
  Program_Model Program_Spec ProgramCase_Proofs RunWhole_Spec RunWholeProj_Proofs.
Import ListNotations.
Open Scope R_scope.
#[local] Existing Instance prec53.
#[local] Existing Instance emax53.

(** C130, Mercator maps. *)
Theorem C130_mercator : forall strtod call pow X h fuel args fs fs' u d0 ts e samples lines b o,
  successful strtod call pow X h fuel args fs fs' u ts e samples lines -> in_force u d0 ->
  ieee X -> (forall n, cfitsio h n = 0%Z) -> accurate (x_scale X) ->
  l_pi (x_libm X) = d_pi -> me_projection e = T_mercator o -> body_spheroid (me_prograde e) (me_radii e) = Ok b ->
  (lines < 2 ^ 52)%Z -> (samples < 2 ^ 52)%Z ->
  forall j p, nth_error (me_plane e :: me_more_planes e) j = Some p -> limits_say d0 (pe_range p) = Some ex_empty ->
  (pe_type p = T_longitude ->
   exists t axes cards d rest, fs' (me_file e) = new_file (Hdu t axes cards d :: rest) /\
   forall k i, (0 <= k < lines)%Z -> (0 <= i < samples)%Z ->
   exists v y z, d (position samples lines (Z.of_nat j) k i) = Some (existT _ t v) /\
     stands_for t cards (Z.of_nat (List.length (me_plane e :: me_more_planes e))) (Z.of_nat j + 1) v y /\
     - tolerance t longitude_plane <= y <= 360 + tolerance t longitude_plane /\
     Rabs (y - (circle_longitude (prograde b) i samples + 360 * IZR z)) <= tolerance t longitude_plane + 1e-11) /\
  (pe_type p = T_latitude None \/ pe_type p = T_latitude (Some Centric) ->
   exists t axes cards d rest, fs' (me_file e) = new_file (Hdu t axes cards d :: rest) /\
   forall k, (0 <= k < lines)%Z -> exists x latg,
     is_finite x = true /\
     Rabs (B2R x - line_ordinate k samples lines) <= 2e-14 * (IZR lines / IZR samples) /\
     x_find X x (neg (A := ar_double) d_pi2) d_pi2 (mercator_x (A := ar_double) (x_libm X) (x_eccentricity X b)) = Ok latg /\
     let lat := x_centric X b latg in
     is_finite lat = true -> Rabs (B2R lat) <= B2R d_pi2 ->
     forall i, (0 <= i < samples)%Z ->
     exists v y, d (position samples lines (Z.of_nat j) k i) = Some (existT _ t v) /\
       stands_for t cards (Z.of_nat (List.length (me_plane e :: me_more_planes e))) (Z.of_nat j + 1) v y /\
       Rabs (y - B2R lat / B2R d_degree) <= tolerance t latitude_plane + 1e-12).
Proof. exact whole_mercator. Qed.
Print Assumptions C130_mercator.

(** C130, polar stereographic maps. *)
Theorem C130_polar : forall strtod call pow X h fuel args fs fs' u d0 ts e samples lines b o,
  successful strtod call pow X h fuel args fs fs' u ts e samples lines -> in_force u d0 ->
  ieee X -> (forall n, cfitsio h n = 0%Z) -> accurate (x_scale X) ->
  me_projection e = T_p_stereo o -> body_spheroid (me_prograde e) (me_radii e) = Ok b ->
  (lines < 2 ^ 52)%Z -> (samples < 2 ^ 52)%Z ->
  forall j p, nth_error (me_plane e :: me_more_planes e) j = Some p -> limits_say d0 (pe_range p) = Some ex_empty ->
  (pe_type p = T_longitude ->
   exists t axes cards d rest, fs' (me_file e) = new_file (Hdu t axes cards d :: rest) /\
   forall k i, (0 <= k < lines)%Z -> (0 <= i < samples)%Z ->
   exists side up, is_number side (sideways (pole_says o) (prograde b) i samples) /\ is_number up (from_center k lines) /\
   let a : double := l_atan2 (x_libm X) side up in
   (is_finite a = true -> Rabs (B2R a) <= 4 ->
    exists v y z, d (position samples lines (Z.of_nat j) k i) = Some (existT _ t v) /\
     stands_for t cards (Z.of_nat (List.length (me_plane e :: me_more_planes e))) (Z.of_nat j + 1) v y /\
     - tolerance t longitude_plane <= y <= 360 + tolerance t longitude_plane /\
     Rabs (y - (B2R a / B2R d_degree + 360 * IZR z)) <= tolerance t longitude_plane + 1e-11)) /\
  (pe_type p = T_latitude None \/ pe_type p = T_latitude (Some Centric) ->
   exists edge t axes cards d rest, edge_says X b o edge /\ fs' (me_file e) = new_file (Hdu t axes cards d :: rest) /\
   let radius := stereo_rho_impl (A := ar_double) (x_libm X) (x_eccentricity X b)
                   (rho_coefficient (A := ar_double) (x_libm X) (Spheroid_Model.eq_rad b) (x_eccentricity X b)) in
   let rim : double := radius (seen_at (pole_says o) (x_graphic X b edge)) in
   forall k i, (0 <= k < lines)%Z -> (0 <= i < samples)%Z ->
   exists side up rho latg,
     is_number side (from_center i samples) /\ is_number up (from_center k lines) /\
     (let h : double := l_hypot (x_libm X) side up in
      is_finite rim = true -> 1e-3 <= B2R rim <= 1e12 -> is_finite h = true -> B2R h = 0 \/ / 4 <= B2R h <= 1e16 ->
      is_finite rho = true /\
      Rabs (B2R rho - cell_radius (B2R rim) (B2R h) samples lines) <=
        1e-15 * cell_radius (B2R rim) (B2R h) samples lines) /\
     x_find X rho (neg (A := ar_double) d_pi2) d_pi2 radius = Ok latg /\
     let lat := x_centric X b (seen_at (pole_says o) latg) in
     (is_finite lat = true -> Rabs (B2R lat) <= B2R d_pi2 ->
      exists v y, d (position samples lines (Z.of_nat j) k i) = Some (existT _ t v) /\
       stands_for t cards (Z.of_nat (List.length (me_plane e :: me_more_planes e))) (Z.of_nat j + 1) v y /\
       Rabs (y - B2R lat / B2R d_degree) <= tolerance t latitude_plane + 1e-12)).
Proof. exact whole_polar. Qed.
Print Assumptions C130_polar.

(** The maps of the examples of C110 and C114, from texts. *)
Definition planet_text (projection plane : string) : text := chars ("MAP: map.fits
BODY: Earth
EQ_RAD: 6378
POL_RAD: 6357
ROTATION: PROGRADE
DATA_TYPE: SHORT
TYPE: " ++ projection ++ "
SAMPLES: 4
LINES: 2
PLANE:
" ++ plane)%string.
Definition planet_host (projection plane : string) : host :=
  Host (fun _ => None) (fun name => if String.eqb name "a.inp" then contents (planet_text projection plane) else missing)
    read_tree false (fun _ => 0%Z) (fun _ _ => None) (fun _ => true).
Definition planet_run (X : outside) (projection plane : string) : ending * option (list (option Z)) :=
  let '(ending, fs) := marc X (planet_host projection plane) 0 ["marc"; "a.inp"]%string old_files in
  (ending, peek the_cells (fs "map.fits"%string)).
Example C130_case :
  planet_run (searching the_program) "MERCATOR" "LONGITUDE" =
    (returned 0, Some [None; Some 13500; Some 4500; Some (-4500); Some (-13500); Some 13500; Some 4500; Some (-4500); Some (-13500); None])%Z /\
  planet_run (searching the_program) "MERCATOR" "LATITUDE:" =
    (returned 0, Some [None; Some (-4500); Some (-4500); Some (-4500); Some (-4500); Some 4500; Some 4500; Some 4500; Some 4500; None])%Z /\
  planet_run (finding the_program) "P_STEREO" "LATITUDE:" =
    (returned 0, Some [None; Some 2864; Some 2864; Some 2864; Some 2864; Some 2864; Some 2864; Some 2864; Some 2864; None])%Z.
Proof. split; [vm_compute; reflexivity|]. split; vm_compute; reflexivity. Qed.
