(** C128: planes of angles of simple cylindrical maps, from the arguments of main() to
    the elements of files. *)
From Coq Require Import List ZArith Reals Bool String.
From Flocq Require Import Core BinarySingleNaN.
From Verif Require Import Base Flt Num LinAlg_Model Maths_Model Spheroid_Model Spheroid_Spec Extrema_Model MakeMap_Model MakeMap_Spec Proj_Model Proj_Spec Virtual_Model Virtual_Spec Params_Model
  Fits_Model Fits_Spec Command_Model Expr_Model Text_Model TextCases_Proofs Cli_Model Cli_Spec Input_Model Entry_Model View_Model Parse_Model Parse_Spec Run_Model Run_Spec RunCase_Proofs RunGrid_Spec
  Ortho_Model Ortho_Spec RunOrtho_Spec Body_Model Body_Spec RunGraphic_Spec BodyCase_Proofs Program_Model Program_Spec ProgramCase_Proofs RunWhole_Spec RunWholeAngle_Proofs.
Import ListNotations.
Open Scope R_scope.
#[local] Existing Instance prec53.
#[local] Existing Instance emax53.

(** C128, latitudes: the elements of planes of planetocentric latitudes stand for the
    latitudes of the middles of the cells between the limits of the input text. *)
Theorem C128_latitudes : forall strtod call pow X h fuel args fs fs' u d0 ts e samples lines b lo hi lo' hi' j p k0,
  successful strtod call pow X h fuel args fs fs' u ts e samples lines -> in_force u d0 ->
  ieee X -> accurate (x_scale X) -> (forall n, cfitsio h n = 0%Z) ->
  body_spheroid (me_prograde e) (me_radii e) = Ok b ->
  nth_error (me_plane e :: me_more_planes e) j = Some p -> limits_say d0 (pe_range p) = Some ex_empty ->
  pe_type p = T_latitude k0 -> is_graphic k0 = false ->
  projection_args (x_fmod X) (l_degree (x_libm X)) (x_centric X) b (me_projection e) = Some (SimpleCylindrical b lo hi lo' hi' false) ->
  IZR lines * 1e-9 <= Rabs (B2R hi - B2R lo) ->
  exists t axes cards d rest, fs' (me_file e) = new_file (Hdu t axes cards d :: rest) /\
  forall k i, (0 <= k < lines)%Z -> (0 <= i < samples)%Z ->
  exists v y, d (position samples lines (Z.of_nat j) k i) = Some (existT _ t v) /\
    stands_for t cards (Z.of_nat (List.length (me_plane e :: me_more_planes e))) (Z.of_nat j + 1) v y /\
    Rabs (y - middle_latitude (B2R lo) (B2R hi) k lines) <= tolerance t latitude_plane + 1e-12.
Proof.
  intros strtod call pow X h fuel args fs fs' u d0 ts e samples lines b lo hi lo' hi' j p k0 S D I A fine Hb J L.
  exact (whole_latitudes strtod call pow X h fuel args fs fs' u d0 ts e samples lines S D I A fine b lo hi lo' hi' j p Hb J L k0).
Qed.
Print Assumptions C128_latitudes.

(** C128, longitudes: likewise, up to whole turns and from 0 to 360 degrees. *)
Theorem C128_longitudes : forall strtod call pow X h fuel args fs fs' u d0 ts e samples lines b lo hi lo' hi' j p,
  successful strtod call pow X h fuel args fs fs' u ts e samples lines -> in_force u d0 ->
  ieee X -> accurate (x_scale X) -> (forall n, cfitsio h n = 0%Z) ->
  body_spheroid (me_prograde e) (me_radii e) = Ok b ->
  nth_error (me_plane e :: me_more_planes e) j = Some p -> limits_say d0 (pe_range p) = Some ex_empty ->
  pe_type p = T_longitude ->
  projection_args (x_fmod X) (l_degree (x_libm X)) (x_centric X) b (me_projection e) = Some (SimpleCylindrical b lo hi lo' hi' false) ->
  (B2R lo' = B2R hi' \/ 1e-9 <= Rabs (B2R hi' - B2R lo')) -> (samples < 2 ^ 52)%Z ->
  exists t axes cards d rest, fs' (me_file e) = new_file (Hdu t axes cards d :: rest) /\
  forall k i, (0 <= k < lines)%Z -> (0 <= i < samples)%Z ->
  exists v y z, d (position samples lines (Z.of_nat j) k i) = Some (existT _ t v) /\
    stands_for t cards (Z.of_nat (List.length (me_plane e :: me_more_planes e))) (Z.of_nat j + 1) v y /\
    - tolerance t longitude_plane <= y <= 360 + tolerance t longitude_plane /\
    Rabs (y - (middle_longitude (prograde b) (B2R lo') (B2R hi') i samples + 360 * IZR z)) <= tolerance t longitude_plane + 1e-11.
Proof.
  intros strtod call pow X h fuel args fs fs' u d0 ts e samples lines b lo hi lo' hi' j p S D I A fine Hb J L.
  exact (whole_longitudes strtod call pow X h fuel args fs fs' u d0 ts e samples lines S D I A fine b lo hi lo' hi' j p Hb J L).
Qed.
Print Assumptions C128_longitudes.

(** C128, planetographic maps: the middles of the cells are evenly spaced in the
    latitudes of the normals, and planes of either kind of latitude say so. *)
Theorem C128_graphic : forall strtod call pow X h fuel args fs fs' u d0 ts e samples lines b lo hi lo' hi' j p arctan k0,
  successful strtod call pow X h fuel args fs fs' u ts e samples lines -> in_force u d0 ->
  ieee X -> accurate (x_scale X) -> (forall n, cfitsio h n = 0%Z) ->
  body_spheroid (me_prograde e) (me_radii e) = Ok b ->
  nth_error (me_plane e :: me_more_planes e) j = Some p -> limits_say d0 (pe_range p) = Some ex_empty ->
  good_library (x_libm X) arctan -> spheroids X arctan -> size_of b -> pe_type p = T_latitude k0 ->
  projection_args (x_fmod X) (l_degree (x_libm X)) (x_centric X) b (me_projection e) = Some (SimpleCylindrical b lo hi lo' hi' true) ->
  IZR lines * 1e-9 <= Rabs (B2R hi - B2R lo) -> (B2R lo' = B2R hi' \/ 1e-9 <= Rabs (B2R hi' - B2R lo')) -> (samples < 2 ^ 52)%Z ->
  exists t axes cards d rest, fs' (me_file e) = new_file (Hdu t axes cards d :: rest) /\
  forall k i, (0 <= k < lines)%Z -> (0 <= i < samples)%Z ->
  forall g1 g2 lat, normal_latitude b (radians (B2R lo)) g1 -> normal_latitude b (radians (B2R hi)) g2 ->
  normal_latitude b lat (middle_latitude g1 g2 k lines) ->
  forall g, (if is_graphic k0 then normal_latitude b lat (radians g) else lat = radians g) ->
  exists v y, d (position samples lines (Z.of_nat j) k i) = Some (existT _ t v) /\
    stands_for t cards (Z.of_nat (List.length (me_plane e :: me_more_planes e))) (Z.of_nat j + 1) v y /\ Rabs (y - g) <= tolerance t latitude_plane + 4e-11.
Proof.
  intros strtod call pow X h fuel args fs fs' u d0 ts e samples lines b lo hi lo' hi' j p arctan k0 S D I A fine Hb J L.
  exact (whole_graphic strtod call pow X h fuel args fs fs' u d0 ts e samples lines S D I A fine b lo hi lo' hi' j p Hb J L arctan k0).
Qed.
Print Assumptions C128_graphic.

(** The Earth from the equator to 60 degrees north and from 0 to 40 degrees: latitudes
    of 15 and 45 degrees, then longitudes of 35, 25, 15 and 5 degrees, less 180, all in
    100 steps to the degree, of which the conversion to integers drops fractions. *)
Definition part_text (plane : string) : text := chars ("MAP: map.fits
BODY: Earth
EQ_RAD: 6378
POL_RAD: 6357
ROTATION: PROGRADE
DATA_TYPE: SHORT
TYPE: SIMPLE_C
OPTIONS:
LO_LAT: 0
HI_LAT: 60
LO_LON: 0
HI_LON: 40
SAMPLES: 4
LINES: 2
PLANE:
" ++ plane)%string.
Definition part_host (plane : string) : host :=
  Host (fun _ => None) (fun name => if String.eqb name "a.inp" then contents (part_text plane) else missing)
    read_tree false (fun _ => 0%Z) (fun _ _ => None) (fun _ => true).
Definition part_run (plane : string) : ending * option (list (option Z)) :=
  let '(ending, fs) := marc series_program (part_host plane) 0 ["marc"; "a.inp"]%string old_files in
  (ending, peek the_cells (fs "map.fits"%string)).
Example C128_case : part_run "LATITUDE:" =
  (returned 0, Some [None; Some 1499; Some 1499; Some 1499; Some 1499; Some 4500; Some 4500; Some 4500; Some 4500; None])%Z.
Proof. vm_compute. reflexivity. Qed.
Example C128_longitudes_case : part_run "LONGITUDE" =
  (returned 0, Some [None; Some (-14500); Some (-15500); Some (-16500); Some (-17500); Some (-14500); Some (-15500); Some (-16500); Some (-17500); None])%Z.
Proof. vm_compute. reflexivity. Qed.
