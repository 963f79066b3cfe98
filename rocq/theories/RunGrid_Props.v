(** C111: the grids of cylindrical maps in files. *)
From Coq Require Import List ZArith Reals Bool String.
From Flocq Require Import Core BinarySingleNaN.
From Verif Require Import Base Flt FltFacts Num Maths_Model Spheroid_Model Extrema_Model MakeMap_Model Proj_Model Virtual_Model Virtual_Spec Params_Model Fits_Model
  Command_Model Command_Spec Input_Model Entry_Model Parse_Model Parse_Spec Run_Model Run_Spec RunCase_Proofs RunMercator_Proofs RunGrid_Spec RunGrid_Proofs.
Import ListNotations.
#[local] Existing Instance prec53.
#[local] Existing Instance emax53.
Open Scope R_scope.

(** C111 (simple cylindrical): the second array of the file is black but for the
    rows of the latitudes and the columns of the longitudes of the grid, evenly
    spaced over the whole map. *)
Theorem C111_simple_cylindrical : forall X fuel status left_over removable u d ts cmds n e,
  ieee X -> rounds_to_integer (x_libm X) -> (forall n, status n = 0%Z) -> in_force u d ->
  unmixed ts -> commands_of X (texts u ts) = Ok (Some cmds) -> nth_error (maps_of ts) n = Some e -> me_projection e = T_simple_c None ->
  exists m b, nth_error cmds n = Some m /\ body_spheroid (me_prograde e) (me_radii e) = Ok b /\
  forall lat lon c w w' r, grid_says d e = Some (Some (lat, lon)) -> grid_step lat -> grid_step lon ->
  fits_size m -> (mc_samples m * mc_lines m < 2 ^ 53)%Z ->
  command_of X fuel m = Some c -> execute status left_over removable c w = (w', Ok r) ->
  exists h cards dd row col, w_file w' = new_file [h; Hdu U8 (image_axes (mc_samples m) (mc_lines m) 1) cards dd] /\
    lined (mc_samples m) (mc_lines m) (B2R lat) (B2R lon) row col dd /\
    rows_follow (mc_lines m) (B2R lat) row /\ columns_follow (prograde b) (mc_samples m) (B2R lon) col.
Proof. exact grid_in_file. Qed.
Print Assumptions C111_simple_cylindrical.

(** C111 (Mercator): the columns are the same; the rows are at the distances of
    the latitudes from the equator, in cells that are square there. *)
Theorem C111_mercator : forall X fuel status left_over removable u d ts cmds n e o,
  ieee X -> l_pi (x_libm X) = d_pi -> rounds_to_integer (x_libm X) -> (forall n, status n = 0%Z) -> in_force u d ->
  unmixed ts -> commands_of X (texts u ts) = Ok (Some cmds) -> nth_error (maps_of ts) n = Some e -> me_projection e = T_mercator o ->
  exists m b, nth_error cmds n = Some m /\ body_spheroid (me_prograde e) (me_radii e) = Ok b /\
  forall lat lon c w w' r, grid_says d e = Some (Some (lat, lon)) -> grid_step lat -> grid_step lon ->
  fits_size m -> (mc_samples m * mc_lines m < 2 ^ 53)%Z ->
  command_of X fuel m = Some c -> execute status left_over removable c w = (w', Ok r) ->
  exists h cards dd row col, w_file w' = new_file [h; Hdu U8 (image_axes (mc_samples m) (mc_lines m) 1) cards dd] /\
    lined (mc_samples m) (mc_lines m) (B2R lat) (B2R lon) row col dd /\
    rows_found (fun n => mercator_x (A := ar_double) (x_libm X) (x_eccentricity X b) (x_graphic X b (Bmult mode_NE n d_degree)))
      (mc_samples m) (mc_lines m) (B2R lat) row /\
    columns_follow (prograde b) (mc_samples m) (B2R lon) col.
Proof. exact mercator_grid_in_file. Qed.
Print Assumptions C111_mercator.

(** Four lines of eight: the equator and the meridians of 90 and 180 degrees (and
    270, but for an interval of 135). *)
Example C111_case : ieee (searching the_program) /\ l_pi (x_libm (searching the_program)) = d_pi /\
  rounds_to_integer (x_libm (searching the_program)) /\ grid_step (double_of_Z 90) /\
  grid_run false (T_simple_c None) 90 90 = Some (map Some
    [0; 0; 255; 0; 255; 0; 255; 0;
     0; 0; 255; 0; 255; 0; 255; 0;
     255; 255; 255; 255; 255; 255; 255; 255;
     0; 0; 255; 0; 255; 0; 255; 0])%Z /\
  grid_run true (T_simple_c None) 90 135 = Some (map Some
    [255; 0; 0; 255; 0; 0; 255; 0;
     255; 0; 0; 255; 0; 0; 255; 0;
     255; 255; 255; 255; 255; 255; 255; 255;
     255; 0; 0; 255; 0; 0; 255; 0])%Z /\
  grid_run false (T_mercator None) 20 90 = Some (map Some
    [0; 0; 255; 0; 255; 0; 255; 0;
     0; 0; 255; 0; 255; 0; 255; 0;
     0; 0; 255; 0; 255; 0; 255; 0;
     255; 255; 255; 255; 255; 255; 255; 255])%Z.
Proof.
  split; [exact searching_ieee|]. split; [reflexivity|]. split; [intros x; reflexivity|]. split.
  { destruct (double_of_Z_exact 90 ltac:(discriminate)) as [F E]. split; [exact F|]. exists 92160%Z. rewrite E. split; [split; reflexivity|]. field. }
  split; [vm_compute; reflexivity|]. split; vm_compute; reflexivity.
Qed.
