(** C116: the elements of orthographic maps. *)
From Coq Require Import List ZArith Reals Bool String.
From Flocq Require Import Core BinarySingleNaN.
From Verif Require Import Base Flt Num Maths_Model Spheroid_Model Extrema_Model MakeMap_Model MakeMap_Spec Proj_Model Virtual_Model Virtual_Spec Params_Model Fits_Model Fits_Spec
  Command_Model Input_Model Entry_Model Parse_Model Parse_Spec Run_Model Run_Spec RunCase_Proofs RunMercator_Proofs RunGrid_Spec
  Roots_Model Ortho_Model Ortho_Spec RunOrtho_Spec RunOrtho_Proofs OrthoCase_Proofs.
Import ListNotations.
Open Scope R_scope.

(** C116: in views of spheres and in views from above the equator, every element of a
    plane of latitudes or longitudes stands for that of a point of the body seen in
    the middle of the cell, or is the blank value and the middle of the cell lies off
    the disk, but for the stated errors. *)
Theorem C116_orthographic : forall X fuel status left_over removable u d0 ts cmds n e o,
  ieee X -> close_library (x_libm X) -> (forall p q r, x_roots X p q r = double_roots p q r) ->
  (forall n, status n = 0%Z) -> accurate (x_scale X) -> in_force u d0 ->
  unmixed ts -> commands_of X (texts u ts) = Ok (Some cmds) ->
  nth_error (maps_of ts) n = Some e -> me_projection e = T_ortho o ->
  exists m b sub_lat sub_lon angle kpp c0, nth_error cmds n = Some m /\ body_spheroid (me_prograde e) (me_radii e) = Ok b /\
  projection_args (x_fmod X) (l_degree (x_libm X)) (x_centric X) b (T_ortho o) = Some (Orthographic b sub_lat sub_lon angle kpp c0) /\
  let eq := Spheroid_Model.eq_rad b in let pol := Spheroid_Model.pol_rad b in
  (fits_size m -> (mc_lines m < 2 ^ 52)%Z -> (mc_samples m < 2 ^ 52)%Z -> plain_view eq pol sub_lat kpp c0 ->
   forall c w w' r, command_of X fuel m = Some c -> execute status left_over removable c w = (w', Ok r) ->
   exists phi lam pa k sc lc, sees sub_lat sub_lon angle phi lam pa /\
   resolution (B2R eq) (B2R kpp) (mc_samples m) (mc_lines m) k /\ center_at c0 (mc_samples m) (mc_lines m) sc lc /\
   forall j p, nth_error (me_plane e :: me_more_planes e) j = Some p -> limits_say d0 (pe_range p) = Some ex_empty ->
   (pe_type p = T_latitude None \/ pe_type p = T_latitude (Some Centric) \/ pe_type p = T_longitude) ->
   exists params t axes cards d rest,
    populate_map_parameters (map (parameters_of X) (mc_images m)) (mc_params m) = Ok params /\
    type_of_bitpix (p_bitpix params) = Some t /\
    w_file w' = new_file (Hdu t axes cards d :: rest) /\
    forall line i, (0 <= line < mc_lines m)%Z -> (0 <= i < mc_samples m)%Z ->
    let x := km k sc (IZR i + / 2) in let z := km k lc (IZR line + / 2) in
    exists v, d (element m (Z.of_nat j) line i) = Some (existT _ t v) /\
     ((blank_of t (p_blank params) = Some v /\ 1 - 1e-12 <= outline (B2R eq) (B2R pol) pa x z) \/
      exists lat lon y, is_seen (B2R eq) (B2R pol) (prograde b) phi lam pa x z lat lon /\
       stands_for t cards (Z.of_nat (List.length (mc_images m))) (Z.of_nat j + 1) v y /\
       (pe_type p <> T_longitude -> Rabs (y - lat * (180 / PI)) <= tolerance t latitude_plane + 1e-12) /\
       (pe_type p = T_longitude -> - tolerance t longitude_plane <= y <= 360 + tolerance t longitude_plane /\
        exists turns : Z, Rabs (y - (lon * (180 / PI) + 360 * IZR turns)) <= tolerance t longitude_plane + 1e-11))).
Proof. exact ortho_map. Qed.
Print Assumptions C116_orthographic.

(** The hypotheses hold of a program with the real functions, rounded.  4 by 2
    cells of a sphere with functions that can be computed (sines of 0, cosines of 1,
    an arc tangent that divides by 10000): the two columns in the middle lie on the
    disk, 3543 km from the center; blank elements are 0; with the center moved to the
    first column, 4000 km per pixel, a retrograde body. *)
Example C116_case :
  close_library (x_libm (with_library close_library_1 the_program)) /\ ieee (with_library close_library_1 the_program) /\
  (forall p q r, x_roots (with_library close_library_1 the_program) p q r = double_roots p q r) /\
  accurate (x_scale (with_library close_library_1 the_program)) /\
  plain_view (double_of_Z 6378) (double_of_Z 6378) (double_of_Z 40) (double_of_Z (-1)) default_center /\
  ortho_run true None (T_latitude None) =
    Some [None; Some 0; Some (-2030); Some (-2030); Some 0; Some 0; Some 2030; Some 2030; Some 0; None]%Z /\
  ortho_run true None T_longitude =
    Some [None; Some 0; Some (-2030); Some 2030; Some 0; Some 0; Some (-2030); Some 2030; Some 0; None]%Z /\
  ortho_run false (Some (None, OrthoOptions (Some seen_from) None (Some (double_of_Z 4000)) (Some (sample_line (double_of_Z 1) (double_of_Z 1))))) T_longitude =
    Some [None; Some 145; Some (-2145); Some (-4437); Some 0; Some 145; Some (-2145); Some (-4437); Some 0; None]%Z.
Proof.
  split; [exact close_1|]. split; [exact close_ieee|]. split; [reflexivity|]. split; [exact the_scale_accurate|]. split; [exact plain_case|].
  split; [vm_compute; reflexivity|]. split; vm_compute; reflexivity.
Qed.

(** Roots of the quadratic: of y^2 - 4 and y^2 + 4. *)
Example C116_roots :
  match double_roots (double_of_Z 1) (double_of_Z 0) (double_of_Z (-4)) with
  | Some (p, q) => B2SF p = B2SF (double_of_Z (-2)) /\ B2SF q = B2SF (double_of_Z 2) \/ B2SF p = B2SF (double_of_Z 2) /\ B2SF q = B2SF (double_of_Z (-2))
  | None => False
  end /\ double_roots (double_of_Z 1) (double_of_Z 0) (double_of_Z 4) = None.
Proof. split; vm_compute; [|reflexivity]. first [left; now split|right; now split]. Qed.
