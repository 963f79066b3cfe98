(** C129: headers, grids and orthographic planes of angles, from the arguments of main()
    to the files. *)
From Coq Require Import List ZArith Reals Bool String.
From Flocq Require Import Core BinarySingleNaN.
From Verif Require Import Base Flt Num LinAlg_Model Maths_Model Spheroid_Model Spheroid_Spec Extrema_Model MakeMap_Model MakeMap_Spec Proj_Model Proj_Spec Virtual_Model Virtual_Spec Params_Model
  Fits_Model Fits_Spec Command_Model Expr_Model Text_Model TextCases_Proofs Cli_Model Cli_Spec Input_Model Entry_Model View_Model Parse_Model Parse_Spec Run_Model Run_Spec RunCase_Proofs RunGrid_Spec
  RunMercator_Spec RunMercator_Proofs RunPolar_Spec RunPolarGrid_Spec RunHeader_Spec Roots_Model Ortho_Model Ortho_Spec RunOrtho_Spec
  Program_Model Program_Spec ProgramCase_Proofs RunWhole_Spec RunWholeMore_Proofs.
Import ListNotations.
Open Scope R_scope.
#[local] Existing Instance prec53.
#[local] Existing Instance emax53.

(** C129, headers: the file of a map holds one array of SAMPLES by LINES by planes, with
    the cards that the entry says, and a second one if and only if GRID is YES. *)
Theorem C129_headers : forall strtod call pow X h fuel args fs fs' u ts e samples lines,
  successful strtod call pow X h fuel args fs fs' u ts e samples lines ->
  exists b t cards d,
  bitpix_is X e b /\ type_of_bitpix b = Some t /\ header_says X e t cards /\
  let map_array := Hdu t (image_axes samples lines (plane_count e)) cards d in
  ((forall i, me_grid e <> Some (true, i)) /\ fs' (me_file e) = new_file [map_array] \/
   exists i dg, me_grid e = Some (true, i) /\
     fs' (me_file e) = new_file [map_array; Hdu U8 (image_axes samples lines 1) (grid_header e) dg]).
Proof. exact whole_header. Qed.
Print Assumptions C129_headers.

(** C129, grids of simple cylindrical maps of the whole body. *)
Theorem C129_grid : forall strtod call pow X h fuel args fs fs' u ts e samples lines,
  successful strtod call pow X h fuel args fs fs' u ts e samples lines -> forall d0, in_force u d0 ->
  ieee X -> (forall n, cfitsio h n = 0%Z) -> forall lat lon,
  rounds_to_integer (x_libm X) -> me_projection e = T_simple_c None ->
  grid_says d0 e = Some (Some (lat, lon)) -> grid_step lat -> grid_step lon -> (samples * lines < 2 ^ 53)%Z ->
  exists h cards dd row col, fs' (me_file e) = new_file [h; Hdu U8 (image_axes samples lines 1) cards dd] /\
    lined samples lines (B2R lat) (B2R lon) row col dd /\
    rows_follow lines (B2R lat) row /\ columns_follow (me_prograde e) samples (B2R lon) col.
Proof. exact whole_grid. Qed.
Print Assumptions C129_grid.

(** C129, grids of polar stereographic maps. *)
Theorem C129_polar_grid : forall strtod call pow X h fuel args fs fs' u ts e samples lines,
  successful strtod call pow X h fuel args fs fs' u ts e samples lines -> forall d0, in_force u d0 ->
  ieee X -> (forall n, cfitsio h n = 0%Z) -> forall b o lat lon,
  rounds_to_integer (x_libm X) -> me_projection e = T_p_stereo o ->
  body_spheroid (me_prograde e) (me_radii e) = Ok b ->
  grid_says d0 e = Some (Some (lat, lon)) -> grid_step lat -> grid_step lon -> (samples * lines < 2 ^ 53)%Z ->
  exists edge h cards dd ring spoke, edge_says X b o edge /\
    fs' (me_file e) = new_file [h; Hdu U8 (image_axes samples lines 1) cards dd] /\
    dotted samples lines (B2R lat) (B2R lon) ring spoke dd /\
    let radius := stereo_rho_impl (A := ar_double) (x_libm X) (x_eccentricity X b)
                    (rho_coefficient (A := ar_double) (x_libm X) (Spheroid_Model.eq_rad b) (x_eccentricity X b)) in
    let rim : double := radius (seen_at (pole_says o) (x_graphic X b edge)) in
    rings_follow (x_libm X) radius (x_graphic X b) (pole_says o) rim samples lines (B2R lat) ring /\
    spokes_follow (x_libm X) radius (pole_says o) rim samples lines (B2R lon) spoke.
Proof. exact whole_polar_grid. Qed.
Print Assumptions C129_polar_grid.

(** C129, planes of planetocentric latitudes and of longitudes of orthographic maps. *)
Theorem C129_orthographic : forall strtod call pow X h fuel args fs fs' u ts e samples lines,
  successful strtod call pow X h fuel args fs fs' u ts e samples lines -> forall d0, in_force u d0 ->
  ieee X -> (forall n, cfitsio h n = 0%Z) -> accurate (x_scale X) -> forall b o sub_lat sub_lon angle kpp c0,
  close_library (x_libm X) -> (forall p q r, x_roots X p q r = double_roots p q r) ->
  me_projection e = T_ortho o -> body_spheroid (me_prograde e) (me_radii e) = Ok b ->
  projection_args (x_fmod X) (l_degree (x_libm X)) (x_centric X) b (T_ortho o) = Some (Orthographic b sub_lat sub_lon angle kpp c0) ->
  let eq := Spheroid_Model.eq_rad b in let pol := Spheroid_Model.pol_rad b in
  (lines < 2 ^ 52)%Z -> (samples < 2 ^ 52)%Z -> plain_view eq pol sub_lat kpp c0 ->
  exists phi lam pa k sc lc, sees sub_lat sub_lon angle phi lam pa /\
  resolution (B2R eq) (B2R kpp) samples lines k /\ center_at c0 samples lines sc lc /\
  forall j p, nth_error (me_plane e :: me_more_planes e) j = Some p -> limits_say d0 (pe_range p) = Some ex_empty ->
  (pe_type p = T_latitude None \/ pe_type p = T_latitude (Some Centric) \/ pe_type p = T_longitude) ->
  exists params0 blank t axes cards d rest, params_of e = Some params0 /\
    fs' (me_file e) = new_file (Hdu t axes cards d :: rest) /\
    (forall z, p_blank params0 = Some z -> blank = Some z) /\
    forall line i, (0 <= line < lines)%Z -> (0 <= i < samples)%Z ->
    let x := km k sc (IZR i + / 2) in let z := km k lc (IZR line + / 2) in
    exists v, d (position samples lines (Z.of_nat j) line i) = Some (existT _ t v) /\
     ((blank_of t blank = Some v /\ 1 - 1e-12 <= outline (B2R eq) (B2R pol) pa x z) \/
      exists lat lon y, is_seen (B2R eq) (B2R pol) (me_prograde e) phi lam pa x z lat lon /\
       stands_for t cards (Z.of_nat (List.length (me_plane e :: me_more_planes e))) (Z.of_nat j + 1) v y /\
       (pe_type p <> T_longitude -> Rabs (y - lat * (180 / PI)) <= tolerance t latitude_plane + 1e-12) /\
       (pe_type p = T_longitude -> - tolerance t longitude_plane <= y <= 360 + tolerance t longitude_plane /\
        exists turns : Z, Rabs (y - (lon * (180 / PI) + 360 * IZR turns)) <= tolerance t longitude_plane + 1e-11)).
Proof. exact whole_ortho_angles. Qed.
Print Assumptions C129_orthographic.

(** Four lines of eight, the equator and three meridians, as in C111. *)
Definition grid_text : text := chars "MAP: map.fits
BODY: Earth
EQ_RAD: 6378
POL_RAD: 6357
ROTATION: RETROGRADE
DATA_TYPE: SHORT
GRID: YES
GRID_INTERVAL: 90
TYPE: SIMPLE_C
SAMPLES: 8
LINES: 4
PLANE:
LATITUDE:
"%string.
Definition grid_host : host :=
  Host (fun _ => None) (fun name => if String.eqb name "a.inp" then contents grid_text else missing)
    read_tree false (fun _ => 0%Z) (fun _ _ => None) (fun _ => true).
Definition grid_in (f : file) : option (list Z * list Z * list (option Z)) :=
  match f with
  | new_file [a; g] => Some (h_axes a, h_axes g,
      map (fun z => match h_disk g z with Some (existT _ U8 v) => Some v | _ => None end) (List.map Z.of_nat (List.seq 1 32)))
  | _ => None
  end.
Example C129_case :
  let '(ending, fs) := marc (searching the_program) grid_host 10 ["marc"; "a.inp"]%string old_files in
  ending = returned 0 /\ grid_in (fs "map.fits"%string) = Some ([8; 4], [8; 4], map Some
    [0; 0; 255; 0; 255; 0; 255; 0;
     0; 0; 255; 0; 255; 0; 255; 0;
     255; 255; 255; 255; 255; 255; 255; 255;
     0; 0; 255; 0; 255; 0; 255; 0])%Z.
Proof. vm_compute. split; reflexivity. Qed.
