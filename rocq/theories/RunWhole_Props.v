(** C126: planes of cosines, from the arguments of main() to the elements of files. *)
From Coq Require Import List ZArith Reals Bool String.
From Flocq Require Import Core BinarySingleNaN.
From Verif Require Import Base Flt Num LinAlg_Model Maths_Model Spheroid_Model Spheroid_Spec Extrema_Model MakeMap_Model MakeMap_Spec Proj_Model Proj_Spec Virtual_Model Virtual_Spec Params_Model
  Fits_Model Fits_Spec Command_Model Expr_Model Text_Model Cli_Model Cli_Spec Input_Model Entry_Model View_Model Parse_Model Parse_Spec Run_Model Run_Spec RunCase_Proofs RunGrid_Spec
  Roots_Model Ortho_Model Ortho_Spec RunOrtho_Spec Body_Model Body_Spec BodyCase_Proofs Program_Model Program_Spec ProgramCase_Proofs RunWhole_Spec RunWhole_Proofs RunWholeCase_Proofs.
Import ListNotations.
Open Scope R_scope.
#[local] Existing Instance prec53.
#[local] Existing Instance emax53.

(** C126, simple cylindrical maps: the elements of the planes MU, MU0 and PHASE in the
    file of a map stand for the cosines at the points in the middles of the cells, as
    the input text gives body, limits, size, observer and sun. *)
Theorem C126_cylindrical : forall strtod call pow X h fuel args fs fs' u d0 ts e samples lines arctan b lo hi lo' hi' j p src pl,
  successful strtod call pow X h fuel args fs fs' u ts e samples lines -> in_force u d0 ->
  ieee X -> accurate (x_scale X) -> (forall n, cfitsio h n = 0%Z) -> good_library (x_libm X) arctan -> spheroids X arctan ->
  body_spheroid (me_prograde e) (me_radii e) = Ok b ->
  projection_args (x_fmod X) (l_degree (x_libm X)) (x_centric X) b (me_projection e) = Some (SimpleCylindrical b lo hi lo' hi' false) ->
  IZR lines * 1e-9 <= Rabs (B2R hi - B2R lo) -> (B2R lo' = B2R hi' \/ 1e-9 <= Rabs (B2R hi' - B2R lo')) -> (samples < 2 ^ 52)%Z ->
  nth_error (me_plane e :: me_more_planes e) j = Some p -> limits_say d0 (pe_range p) = Some ex_empty ->
  source_of (x_fmod X) (l_degree (x_libm X)) (x_centric X) (x_au X) (opens X) (refuses X) d0 b (average_of (me_projection e)) (pe_type p) = Some src ->
  cosine_plane src = Some pl ->
  exists t axes cards d rest, fs' (me_file e) = new_file (Hdu t axes cards d :: rest) /\
  forall k i, (0 <= k < lines)%Z -> (0 <= i < samples)%Z ->
  forall far cosine err, 0 < far ->
  shows_cosine (spherical far (radians (middle_latitude (B2R lo) (B2R hi) k lines)) (radians (middle_longitude (prograde b) (B2R lo') (B2R hi') i samples)))
    1e-13 src cosine err ->
  exists v y, d (position samples lines (Z.of_nat j) k i) = Some (existT _ t v) /\
    stands_for t cards (Z.of_nat (List.length (me_plane e :: me_more_planes e))) (Z.of_nat j + 1) v y /\ Rabs (y - cosine) <= tolerance t pl + err.
Proof.
  intros strtod call pow X h fuel args fs fs' u d0 ts e samples lines arctan b lo hi lo' hi' j p src pl S D I A fine GL SP.
  exact (whole_cylindrical strtod call pow X h fuel args fs fs' u d0 ts e samples lines S D I A fine arctan GL SP b lo hi lo' hi' j p src pl).
Qed.
Print Assumptions C126_cylindrical.

(** C126, orthographic maps: they stand for the cosines at a point of the body seen in
    the middle of the cell, or are the blank value, that of the input text if it gives
    one, and the middle of the cell lies off the disk. *)
Theorem C126_orthographic : forall strtod call pow X h fuel args fs fs' u d0 ts e samples lines arctan (b : body) sub_lat sub_lon angle kpp c0 j p src pl,
  successful strtod call pow X h fuel args fs fs' u ts e samples lines -> in_force u d0 ->
  ieee X -> accurate (x_scale X) -> (forall n, cfitsio h n = 0%Z) -> good_library (x_libm X) arctan -> spheroids X arctan ->
  close_library (x_libm X) -> (forall p q r, x_roots X p q r = double_roots p q r) ->
  body_spheroid (me_prograde e) (me_radii e) = Ok b ->
  projection_args (x_fmod X) (l_degree (x_libm X)) (x_centric X) b (me_projection e) = Some (Orthographic b sub_lat sub_lon angle kpp c0) ->
  let eq := Spheroid_Model.eq_rad b in let pol := Spheroid_Model.pol_rad b in
  plain_view eq pol sub_lat kpp c0 -> (lines < 2 ^ 52)%Z -> (samples < 2 ^ 52)%Z ->
  nth_error (me_plane e :: me_more_planes e) j = Some p -> limits_say d0 (pe_range p) = Some ex_empty ->
  source_of (x_fmod X) (l_degree (x_libm X)) (x_centric X) (x_au X) (opens X) (refuses X) d0 b (average_of (me_projection e)) (pe_type p) = Some src ->
  cosine_plane src = Some pl ->
  exists phi lam pa k sc lc, sees sub_lat sub_lon angle phi lam pa /\
  resolution (B2R eq) (B2R kpp) samples lines k /\ center_at c0 samples lines sc lc /\
  exists given blank t axes cards d rest, params_of e = Some given /\
    fs' (me_file e) = new_file (Hdu t axes cards d :: rest) /\
    (forall z, p_blank given = Some z -> blank = Some z) /\
    forall line i, (0 <= line < lines)%Z -> (0 <= i < samples)%Z ->
    let x := km k sc (IZR i + / 2) in let z := km k lc (IZR line + / 2) in
    exists v, d (position samples lines (Z.of_nat j) line i) = Some (existT _ t v) /\
     ((blank_of t blank = Some v /\ 1 - 1e-12 <= outline (B2R eq) (B2R pol) pa x z) \/
      exists lat lon, is_seen (B2R eq) (B2R pol) (prograde b) phi lam pa x z lat lon /\
       forall far cosine err, 0 < far -> shows_cosine (spherical far lat lon) 1e-14 src cosine err ->
       exists y, stands_for t cards (Z.of_nat (List.length (me_plane e :: me_more_planes e))) (Z.of_nat j + 1) v y /\ Rabs (y - cosine) <= tolerance t pl + err).
Proof.
  intros strtod call pow X h fuel args fs fs' u d0 ts e samples lines arctan b sub_lat sub_lon angle kpp c0 j p src pl S D I A fine GL SP CL Rt.
  exact (whole_orthographic strtod call pow X h fuel args fs fs' u d0 ts e samples lines S D I A fine arctan GL SP CL Rt b sub_lat sub_lon angle kpp c0 j p src pl).
Qed.
Print Assumptions C126_orthographic.

(** From the text of an input file: the Earth lit from 10 degrees, 10000 steps to 1,
    as C119's case. *)
Example C126_case : exists e fs',
  successful digits_value (fun _ x => x) (fun x _ => x) series_program lit_host 0 ["a.inp"]%string old_files fs' None [(e, [])] e 4 2 /\
  peek the_cells (fs' "map.fits"%string) =
    Some [None; Some 4042; Some (-5773); Some (-4042); Some 5773; Some 4042; Some (-5773); Some (-4042); Some 5773; None]%Z.
Proof. exact lit_successful. Qed.
