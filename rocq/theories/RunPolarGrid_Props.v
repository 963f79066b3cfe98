(** C115: the grids of polar stereographic maps in files. *)
From Coq Require Import List ZArith Reals Bool String.
From Flocq Require Import Core BinarySingleNaN.
From Verif Require Import Base Flt Num FltFacts Maths_Model Spheroid_Model Extrema_Model MakeMap_Model Proj_Model Virtual_Model Virtual_Spec Params_Model Fits_Model
  Command_Model Input_Model Entry_Model Parse_Model Parse_Spec Run_Model Run_Spec RunCase_Proofs RunMercator_Proofs RunGrid_Spec RunGrid_Proofs
  RunPolar_Spec RunPolarGrid_Spec RunPolarGrid_Proofs.
Import ListNotations.
Open Scope R_scope.

(** C115: the second array of the file is black but for 2000 dots around the pole
    for each latitude and 2000 dots in the direction of each longitude. *)
Theorem C115_polar_grid : forall X fuel status left_over removable u d ts cmds n e o,
  ieee X -> rounds_to_integer (x_libm X) -> (forall n, status n = 0%Z) -> in_force u d ->
  unmixed ts -> commands_of X (texts u ts) = Ok (Some cmds) -> nth_error (maps_of ts) n = Some e -> me_projection e = T_p_stereo o ->
  exists m b, nth_error cmds n = Some m /\ body_spheroid (me_prograde e) (me_radii e) = Ok b /\
  forall lat lon c w w' r, grid_says d e = Some (Some (lat, lon)) -> grid_step lat -> grid_step lon ->
  fits_size m -> (mc_samples m * mc_lines m < 2 ^ 53)%Z ->
  command_of X fuel m = Some c -> execute status left_over removable c w = (w', Ok r) ->
  exists edge h cards dd ring spoke, edge_says X b o edge /\
    w_file w' = new_file [h; Hdu U8 (image_axes (mc_samples m) (mc_lines m) 1) cards dd] /\
    dotted (mc_samples m) (mc_lines m) (B2R lat) (B2R lon) ring spoke dd /\
    let radius := stereo_rho_impl (A := ar_double) (x_libm X) (x_eccentricity X b)
                    (rho_coefficient (A := ar_double) (x_libm X) (Spheroid_Model.eq_rad b) (x_eccentricity X b)) in
    let rim : double := radius (seen_at (pole_says o) (x_graphic X b edge)) in
    rings_follow (x_libm X) radius (x_graphic X b) (pole_says o) rim (mc_samples m) (mc_lines m) (B2R lat) ring /\
    spokes_follow (x_libm X) radius (pole_says o) rim (mc_samples m) (mc_lines m) (B2R lon) spoke.
Proof. exact polar_grid_in_file. Qed.
Print Assumptions C115_polar_grid.

(** Four lines of eight, the latitude 10 degrees and the longitude 360 degrees, in a
    program whose sine and cosine are the angle. *)
Example C115_case : ieee (searching the_program) /\ rounds_to_integer (x_libm (searching the_program)) /\
  grid_step (double_of_Z 100) /\ grid_step (double_of_Z 360) /\
  grid_run true (T_p_stereo None) 100 360 = Some (map Some
    [0; 0; 255; 0; 0; 0; 0; 0;
     0; 0; 0; 255; 0; 0; 0; 0;
     0; 0; 0; 0; 255; 0; 0; 0;
     0; 0; 0; 0; 0; 255; 0; 0])%Z.
Proof.
  split; [exact searching_ieee|]. split; [intros x; reflexivity|]. split.
  { destruct (double_of_Z_exact 100 ltac:(discriminate)) as [F E]. split; [exact F|]. exists 102400%Z. rewrite E. split; [split; reflexivity|]. field. }
  split.
  { destruct (double_of_Z_exact 360 ltac:(discriminate)) as [F E]. split; [exact F|]. exists 368640%Z. rewrite E. split; [split; reflexivity|]. field. }
  vm_compute. reflexivity.
Qed.
