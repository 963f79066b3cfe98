(** The semantic actions of src/parse.yy: what a map file or a user file sets,
    in which order, and the commands that come out.  The text has already been
    taken apart by the grammar: an entry is the tree of what is written, with
    the value of each expression in place of the expression ([Expr_Model]
    evaluates expressions, [Entry_Model] the values of keywords).  Where the
    grammar fixes which of several optional parts may be combined, the trees
    here allow every combination.  MINNAERT is parsed and ignored by the code
    (src/parse.yy:1398-1405) and left out. *)
From Coq Require Import List ZArith Bool String.
From Flocq Require Import Core BinarySingleNaN.
From Verif Require Import Base Flt Num Maths_Model Spheroid_Model Extrema_Model Ortho_Model Params_Model Entry_Model.
From Verif Require Command_Model.
Import ListNotations.
Open Scope Z_scope.

(** ** What is written *)

Record lat_entry := LatEntry { le_value : double; le_suffix : lat_suffix; le_kind : lat_kind }.
Record lon_entry := LonEntry { lo_value : double; lo_suffix : lon_suffix }.

(** A latitude and a longitude in either order (sub_observ, sub_solar,
    lat_lon_given). *)
Inductive point_entry := lat_first (lat : lat_entry) (lon : lon_entry) | lon_first (lon : lon_entry) (lat : lat_entry).

(** plane_data_range, src/parse.yy:1024-1060. *)
Inductive data_range := no_range | min_only (x : double) | max_only (x : double)
| min_max (lo hi : double) | max_min (hi lo : double).

(** grid_intervals, src/parse.yy:758-764. *)
Inductive intervals := both_intervals (x : double) | lat_interval (x : double) | lon_interval (x : double)
| lat_lon_interval (lat lon : double) | lon_lat_interval (lon lat : double).

(** nibbling, src/parse.yy:1180-1293: the entries in their order. *)
Inductive side := all_sides | left_side | right_side | top_side | bottom_side.
Definition nibbling := list (side * number).

(** centers, src/parse.yy:1769-1815. *)
Inductive centers := sample_line (sample line : double) | line_sample (line sample : double) | at_center (p : point_entry).

(** image_geometry, src/parse.yy:1442-1477. *)
Inductive scale_entry := km_per_pixel (x : double) | arcsec_per_pix (x : double)
| focal_scale (focal scale : double) | scale_focal (scale focal : double).

Inductive inversion := vertical | horizontal | both_ways.

(** optical_axis, src/parse.yy:1817-1823. *)
Inductive axis_entry := sample_line_oa (sample line : double) | line_sample_oa (line sample : double).

Record angle_entry := AngleEntry { ae_value : double; ae_turn : turn }.
Record range_entry := RangeEntry { re_value : double; re_unit : length_unit }.

(** image_setup, src/parse.yy:1087-1151. *)
Record image_entry := ImageEntry {
  ie_file : string;
  ie_nibbling : nibbling;
  ie_inversion : option inversion;
  ie_interpolate : option bool;
  ie_remove_sky : option bool;
  ie_centers : centers;
  ie_axis : option axis_entry;
  ie_flat_field : option string;
  ie_geom_correct : option bool;
  ie_emi_ang_limit : option double;
  ie_terminator : option bool;
  ie_sub_observ : point_entry;
  ie_position_angle : angle_entry;
  ie_sub_solar : point_entry;
  ie_range : range_entry;
  ie_scale : scale_entry }.

(** plane_type, src/parse.yy:1062-1081; [image] has at least one image. *)
Inductive plane_type :=
| T_image (i : image_entry) (more : list image_entry)
| T_mu (o : point_entry) (r : range_entry) (s : option point_entry)
| T_mu0 (o : option (point_entry * range_entry)) (s : point_entry)
| T_phase (o : point_entry) (r : range_entry) (s : point_entry)
| T_latitude (k : option lat_kind)
| T_longitude.

Record plane_entry := PlaneEntry { pe_number : option number; pe_range : data_range; pe_type : plane_type }.

Inductive average := AVG_NONE | AVG_UNWEIGHTED | AVG_WEIGHTED.

(** lat_range and lon_range, src/parse.yy:1919-1962. *)
Inductive lat_range := lo_hi_lat (lo hi : lat_entry) | hi_lo_lat (hi lo : lat_entry).
Inductive lon_range := lo_hi_lon (lo hi : lon_entry) | hi_lo_lon (hi lo : lon_entry).

(** projection_type, src/parse.yy:812-826 and 1594-1917; the options with their
    AVERAGING. *)
Record ortho_options := OrthoOptions {
  oo_sub_observ : option point_entry; oo_position_angle : option angle_entry;
  oo_km_per_pixel : option double; oo_centers : option centers }.
Inductive projection_entry :=
| T_mercator (o : option (option average))
| T_ortho (o : option (option average * ortho_options))
| T_p_stereo (o : option (option average * bool * option lat_entry))
| T_simple_c (o : option (option average * option lat_kind * option lat_range * option lon_range)).

(** map_setup, src/parse.yy:562-612; a data type is given by its BITPIX. *)
Record map_entry := MapEntry {
  me_file : string;
  me_author : option string;
  me_origin : option string;
  me_comments : list string;
  me_xcomments : list string;
  me_body : string;
  me_radii : radii_entry ar_double;
  me_prograde : bool;
  me_offset : option double;
  me_scale : option double;
  me_type : option Z;
  me_blank : option number;
  me_grid : option (bool * option intervals);
  me_projection : projection_entry;
  me_planes : option number;
  me_samples : number;
  me_lines : number;
  me_plane : plane_entry;
  me_more_planes : list plane_entry }.

(** user_file_parse, src/parse.yy:541-555. *)
Record user_entry := UserEntry { ue_intervals : intervals; ue_range : data_range; ue_nibbling : nibbling }.

(** map, src/parse.yy:536-539 and 557-560. *)
Inductive input_text := user_text (u : user_entry) | map_text (m : map_entry) (more : list map_entry).

(** ** What comes out *)

Definition body := spheroid ar_double.

(** Where an orthographic map is centered: OrthographicCenter,
    lib/marc/Orthographic.h:193-215. *)
Inductive geometry_type := DEFAULT | CENTER_GIVEN | LAT_LON_GIVEN.
Record ortho_center := OrthoCenter { oc_geometry : geometry_type; oc_sample_lat : double; oc_line_lon : double }.

(** What the constructor of Orthographic makes of it: without a geometry the
    numbers are not used, lib/marc/Orthographic.cpp:204-256. *)
Definition used_center (c : ortho_center) : Ortho_Model.center ar_double :=
  match oc_geometry c with
  | DEFAULT => default_center
  | CENTER_GIVEN => center_given (A := ar_double) (oc_sample_lat c) (oc_line_lon c)
  | LAT_LON_GIVEN => lat_lon_given (A := ar_double) (oc_sample_lat c) (oc_line_lon c)
  end.

(** The map factories, by the arguments of their constructors. *)
Inductive projection :=
| Mercator (b : body)
| Orthographic (b : body) (sub_lat sub_lon position_angle km_per_pixel : double) (c : Ortho_Model.center ar_double)
| PolarStereographic (b : body) (max_lat : double) (north_pole : bool)
| SimpleCylindrical (b : body) (lo_lat hi_lat lo_lon hi_lon : double) (graphic_lat : bool).

(** The members of ViewingGeometry the parser calls ([View_Model] models them). *)
Inductive vcall :=
| v_sub_observ (lat lon : double) | v_position_angle (x : double) | v_sub_solar (lat lon : double) | v_range (x : double)
| v_km_per_pixel (x : double) | v_arcsec_per_pixel (x : double) | v_focal_length (x : double) | v_scale (x : double)
| v_body_center (sample line : double) | v_lat_lon_center (lat lon : double) | v_optical_axis (sample line : double)
| v_emi_ang_limit (x : double) | v_use_terminator (b : bool).

(** A viewing geometry, by its body and the calls made. *)
Record view := View { vw_body : body; vw_calls : list vcall }.

(** PhotoImageParameters, lib/marc/PhotoImageParameters.h. *)
Record nibbles := Nibbles { nb_left : Z; nb_right : Z; nb_top : Z; nb_bottom : Z }.
Record photo_parameters := PhotoParameters { pr_nibbles : nibbles; pr_remove_sky : bool }.

(** PhotoImageFactory, src/PhotoImageFactory.h:112-148. *)
Record photo_factory := PhotoFactory {
  ph_file : string; ph_flat_field : string; ph_geometric_correction : bool; ph_interpolate : bool;
  ph_invert_v : bool; ph_invert_h : bool; ph_config : option photo_parameters; ph_geometry : option view }.

(** The image factories and their limits (SourceImageFactory). *)
Inductive source_factory :=
| F_photo (p : photo_factory)
| F_mosaic (l : list photo_factory) (a : average)
| F_mu (b : body) (lat lon range : double)
| F_mu0 (b : body) (lat lon : double)
| F_phase (b : body) (lat lon solar_lat solar_lon range : double)
| F_latitude (b : body) (graphic : bool)
| F_longitude.
Record image_factory := ImageFactory { if_source : source_factory; if_limits : extrema (ct F64) }.

(** MapCommand, src/MapCommand.cpp:67-81 and 265-283. *)
Record map_command := MapCommand {
  mc_file : string; mc_samples : Z; mc_lines : Z; mc_projection : projection; mc_params : params;
  mc_grid : option (double * double); mc_images : list image_factory }.

(** The user's defaults, ParseParameter, src/parse_scan.h:66-92. *)
Record defaults := Defaults {
  d_lat_interval : double; d_lon_interval : double; d_minimum : option double; d_maximum : option double;
  d_nibbles : nibbles }.

(** Constructor, src/parse_scan.cpp:18-31. *)
Definition defaults_new : defaults :=
  Defaults (double_of_Z 10) (double_of_Z 10) None None (Nibbles 0 0 0 0).

(** ** Global variables, src/parse.yy:316-389 *)

(** Those of type double. *)
Inductive var :=
| sample_center | line_center | lat_at_center | lon_at_center
| km_per_pixel_val | arcsec_per_pix_val | focal_length_val | pixel_scale_val
| max_lat | lo_lat | hi_lat | lo_lon | hi_lon
| sub_observ_lat | sub_observ_lon | position_angle_val.
Definition var_eqb (a b : var) : bool :=
  match a, b with
  | sample_center, sample_center | line_center, line_center | lat_at_center, lat_at_center
  | lon_at_center, lon_at_center | km_per_pixel_val, km_per_pixel_val | arcsec_per_pix_val, arcsec_per_pix_val
  | focal_length_val, focal_length_val | pixel_scale_val, pixel_scale_val | max_lat, max_lat | lo_lat, lo_lat
  | hi_lat, hi_lat | lo_lon, lo_lon | hi_lon, hi_lon | sub_observ_lat, sub_observ_lat
  | sub_observ_lon, sub_observ_lon | position_angle_val, position_angle_val => true
  | _, _ => false
  end.

(** The globals, together with [pp]: the defaults and the commands so far.
    plane_num (src/parse.yy:349) is written and never read; it is left out. *)
Record globals := Globals {
  g_filename : string;
  g_body : option body;
  g_params : option params;
  g_factory : option projection;
  g_samples : Z;
  g_lines : Z;
  g_create_grid : bool;
  g_lat_interval : double;
  g_lon_interval : double;
  g_photo_factory : option photo_factory;
  g_photo_factories : list photo_factory;
  g_averaging : average;
  g_photo_parameters : option photo_parameters;
  g_view : option view;
  g_image_factory : option image_factory;
  g_image_factories : list image_factory;
  g_north_pole : bool;
  g_num_planes : Z;
  g_expected_plane : Z;
  g_minimum : option double;
  g_maximum : option double;
  g_val : var -> double;
  g_graphic_lat : bool;
  g_ortho_center : ortho_center;
  g_pp : defaults;
  g_commands : list map_command }.

(** Assignment to the globals. *)
Definition set_filename (x : string) (g : globals) : globals :=
  Globals x (g_body g) (g_params g) (g_factory g) (g_samples g) (g_lines g) (g_create_grid g) (g_lat_interval g) (g_lon_interval g) (g_photo_factory g) (g_photo_factories g) (g_averaging g) (g_photo_parameters g) (g_view g) (g_image_factory g) (g_image_factories g) (g_north_pole g) (g_num_planes g) (g_expected_plane g) (g_minimum g) (g_maximum g) (g_val g) (g_graphic_lat g) (g_ortho_center g) (g_pp g) (g_commands g).
Definition set_body (x : option body) (g : globals) : globals :=
  Globals (g_filename g) x (g_params g) (g_factory g) (g_samples g) (g_lines g) (g_create_grid g) (g_lat_interval g) (g_lon_interval g) (g_photo_factory g) (g_photo_factories g) (g_averaging g) (g_photo_parameters g) (g_view g) (g_image_factory g) (g_image_factories g) (g_north_pole g) (g_num_planes g) (g_expected_plane g) (g_minimum g) (g_maximum g) (g_val g) (g_graphic_lat g) (g_ortho_center g) (g_pp g) (g_commands g).
Definition set_params (x : option params) (g : globals) : globals :=
  Globals (g_filename g) (g_body g) x (g_factory g) (g_samples g) (g_lines g) (g_create_grid g) (g_lat_interval g) (g_lon_interval g) (g_photo_factory g) (g_photo_factories g) (g_averaging g) (g_photo_parameters g) (g_view g) (g_image_factory g) (g_image_factories g) (g_north_pole g) (g_num_planes g) (g_expected_plane g) (g_minimum g) (g_maximum g) (g_val g) (g_graphic_lat g) (g_ortho_center g) (g_pp g) (g_commands g).
Definition set_factory (x : option projection) (g : globals) : globals :=
  Globals (g_filename g) (g_body g) (g_params g) x (g_samples g) (g_lines g) (g_create_grid g) (g_lat_interval g) (g_lon_interval g) (g_photo_factory g) (g_photo_factories g) (g_averaging g) (g_photo_parameters g) (g_view g) (g_image_factory g) (g_image_factories g) (g_north_pole g) (g_num_planes g) (g_expected_plane g) (g_minimum g) (g_maximum g) (g_val g) (g_graphic_lat g) (g_ortho_center g) (g_pp g) (g_commands g).
Definition set_samples (x : Z) (g : globals) : globals :=
  Globals (g_filename g) (g_body g) (g_params g) (g_factory g) x (g_lines g) (g_create_grid g) (g_lat_interval g) (g_lon_interval g) (g_photo_factory g) (g_photo_factories g) (g_averaging g) (g_photo_parameters g) (g_view g) (g_image_factory g) (g_image_factories g) (g_north_pole g) (g_num_planes g) (g_expected_plane g) (g_minimum g) (g_maximum g) (g_val g) (g_graphic_lat g) (g_ortho_center g) (g_pp g) (g_commands g).
Definition set_lines (x : Z) (g : globals) : globals :=
  Globals (g_filename g) (g_body g) (g_params g) (g_factory g) (g_samples g) x (g_create_grid g) (g_lat_interval g) (g_lon_interval g) (g_photo_factory g) (g_photo_factories g) (g_averaging g) (g_photo_parameters g) (g_view g) (g_image_factory g) (g_image_factories g) (g_north_pole g) (g_num_planes g) (g_expected_plane g) (g_minimum g) (g_maximum g) (g_val g) (g_graphic_lat g) (g_ortho_center g) (g_pp g) (g_commands g).
Definition set_create_grid (x : bool) (g : globals) : globals :=
  Globals (g_filename g) (g_body g) (g_params g) (g_factory g) (g_samples g) (g_lines g) x (g_lat_interval g) (g_lon_interval g) (g_photo_factory g) (g_photo_factories g) (g_averaging g) (g_photo_parameters g) (g_view g) (g_image_factory g) (g_image_factories g) (g_north_pole g) (g_num_planes g) (g_expected_plane g) (g_minimum g) (g_maximum g) (g_val g) (g_graphic_lat g) (g_ortho_center g) (g_pp g) (g_commands g).
Definition set_lat_interval (x : double) (g : globals) : globals :=
  Globals (g_filename g) (g_body g) (g_params g) (g_factory g) (g_samples g) (g_lines g) (g_create_grid g) x (g_lon_interval g) (g_photo_factory g) (g_photo_factories g) (g_averaging g) (g_photo_parameters g) (g_view g) (g_image_factory g) (g_image_factories g) (g_north_pole g) (g_num_planes g) (g_expected_plane g) (g_minimum g) (g_maximum g) (g_val g) (g_graphic_lat g) (g_ortho_center g) (g_pp g) (g_commands g).
Definition set_lon_interval (x : double) (g : globals) : globals :=
  Globals (g_filename g) (g_body g) (g_params g) (g_factory g) (g_samples g) (g_lines g) (g_create_grid g) (g_lat_interval g) x (g_photo_factory g) (g_photo_factories g) (g_averaging g) (g_photo_parameters g) (g_view g) (g_image_factory g) (g_image_factories g) (g_north_pole g) (g_num_planes g) (g_expected_plane g) (g_minimum g) (g_maximum g) (g_val g) (g_graphic_lat g) (g_ortho_center g) (g_pp g) (g_commands g).
Definition set_photo_factory (x : option photo_factory) (g : globals) : globals :=
  Globals (g_filename g) (g_body g) (g_params g) (g_factory g) (g_samples g) (g_lines g) (g_create_grid g) (g_lat_interval g) (g_lon_interval g) x (g_photo_factories g) (g_averaging g) (g_photo_parameters g) (g_view g) (g_image_factory g) (g_image_factories g) (g_north_pole g) (g_num_planes g) (g_expected_plane g) (g_minimum g) (g_maximum g) (g_val g) (g_graphic_lat g) (g_ortho_center g) (g_pp g) (g_commands g).
Definition set_photo_factories (x : list photo_factory) (g : globals) : globals :=
  Globals (g_filename g) (g_body g) (g_params g) (g_factory g) (g_samples g) (g_lines g) (g_create_grid g) (g_lat_interval g) (g_lon_interval g) (g_photo_factory g) x (g_averaging g) (g_photo_parameters g) (g_view g) (g_image_factory g) (g_image_factories g) (g_north_pole g) (g_num_planes g) (g_expected_plane g) (g_minimum g) (g_maximum g) (g_val g) (g_graphic_lat g) (g_ortho_center g) (g_pp g) (g_commands g).
Definition set_averaging (x : average) (g : globals) : globals :=
  Globals (g_filename g) (g_body g) (g_params g) (g_factory g) (g_samples g) (g_lines g) (g_create_grid g) (g_lat_interval g) (g_lon_interval g) (g_photo_factory g) (g_photo_factories g) x (g_photo_parameters g) (g_view g) (g_image_factory g) (g_image_factories g) (g_north_pole g) (g_num_planes g) (g_expected_plane g) (g_minimum g) (g_maximum g) (g_val g) (g_graphic_lat g) (g_ortho_center g) (g_pp g) (g_commands g).
Definition set_photo_parameters (x : option photo_parameters) (g : globals) : globals :=
  Globals (g_filename g) (g_body g) (g_params g) (g_factory g) (g_samples g) (g_lines g) (g_create_grid g) (g_lat_interval g) (g_lon_interval g) (g_photo_factory g) (g_photo_factories g) (g_averaging g) x (g_view g) (g_image_factory g) (g_image_factories g) (g_north_pole g) (g_num_planes g) (g_expected_plane g) (g_minimum g) (g_maximum g) (g_val g) (g_graphic_lat g) (g_ortho_center g) (g_pp g) (g_commands g).
Definition set_view (x : option view) (g : globals) : globals :=
  Globals (g_filename g) (g_body g) (g_params g) (g_factory g) (g_samples g) (g_lines g) (g_create_grid g) (g_lat_interval g) (g_lon_interval g) (g_photo_factory g) (g_photo_factories g) (g_averaging g) (g_photo_parameters g) x (g_image_factory g) (g_image_factories g) (g_north_pole g) (g_num_planes g) (g_expected_plane g) (g_minimum g) (g_maximum g) (g_val g) (g_graphic_lat g) (g_ortho_center g) (g_pp g) (g_commands g).
Definition set_image_factory (x : option image_factory) (g : globals) : globals :=
  Globals (g_filename g) (g_body g) (g_params g) (g_factory g) (g_samples g) (g_lines g) (g_create_grid g) (g_lat_interval g) (g_lon_interval g) (g_photo_factory g) (g_photo_factories g) (g_averaging g) (g_photo_parameters g) (g_view g) x (g_image_factories g) (g_north_pole g) (g_num_planes g) (g_expected_plane g) (g_minimum g) (g_maximum g) (g_val g) (g_graphic_lat g) (g_ortho_center g) (g_pp g) (g_commands g).
Definition set_image_factories (x : list image_factory) (g : globals) : globals :=
  Globals (g_filename g) (g_body g) (g_params g) (g_factory g) (g_samples g) (g_lines g) (g_create_grid g) (g_lat_interval g) (g_lon_interval g) (g_photo_factory g) (g_photo_factories g) (g_averaging g) (g_photo_parameters g) (g_view g) (g_image_factory g) x (g_north_pole g) (g_num_planes g) (g_expected_plane g) (g_minimum g) (g_maximum g) (g_val g) (g_graphic_lat g) (g_ortho_center g) (g_pp g) (g_commands g).
Definition set_north_pole (x : bool) (g : globals) : globals :=
  Globals (g_filename g) (g_body g) (g_params g) (g_factory g) (g_samples g) (g_lines g) (g_create_grid g) (g_lat_interval g) (g_lon_interval g) (g_photo_factory g) (g_photo_factories g) (g_averaging g) (g_photo_parameters g) (g_view g) (g_image_factory g) (g_image_factories g) x (g_num_planes g) (g_expected_plane g) (g_minimum g) (g_maximum g) (g_val g) (g_graphic_lat g) (g_ortho_center g) (g_pp g) (g_commands g).
Definition set_num_planes (x : Z) (g : globals) : globals :=
  Globals (g_filename g) (g_body g) (g_params g) (g_factory g) (g_samples g) (g_lines g) (g_create_grid g) (g_lat_interval g) (g_lon_interval g) (g_photo_factory g) (g_photo_factories g) (g_averaging g) (g_photo_parameters g) (g_view g) (g_image_factory g) (g_image_factories g) (g_north_pole g) x (g_expected_plane g) (g_minimum g) (g_maximum g) (g_val g) (g_graphic_lat g) (g_ortho_center g) (g_pp g) (g_commands g).
Definition set_expected_plane (x : Z) (g : globals) : globals :=
  Globals (g_filename g) (g_body g) (g_params g) (g_factory g) (g_samples g) (g_lines g) (g_create_grid g) (g_lat_interval g) (g_lon_interval g) (g_photo_factory g) (g_photo_factories g) (g_averaging g) (g_photo_parameters g) (g_view g) (g_image_factory g) (g_image_factories g) (g_north_pole g) (g_num_planes g) x (g_minimum g) (g_maximum g) (g_val g) (g_graphic_lat g) (g_ortho_center g) (g_pp g) (g_commands g).
Definition set_minimum (x : option double) (g : globals) : globals :=
  Globals (g_filename g) (g_body g) (g_params g) (g_factory g) (g_samples g) (g_lines g) (g_create_grid g) (g_lat_interval g) (g_lon_interval g) (g_photo_factory g) (g_photo_factories g) (g_averaging g) (g_photo_parameters g) (g_view g) (g_image_factory g) (g_image_factories g) (g_north_pole g) (g_num_planes g) (g_expected_plane g) x (g_maximum g) (g_val g) (g_graphic_lat g) (g_ortho_center g) (g_pp g) (g_commands g).
Definition set_maximum (x : option double) (g : globals) : globals :=
  Globals (g_filename g) (g_body g) (g_params g) (g_factory g) (g_samples g) (g_lines g) (g_create_grid g) (g_lat_interval g) (g_lon_interval g) (g_photo_factory g) (g_photo_factories g) (g_averaging g) (g_photo_parameters g) (g_view g) (g_image_factory g) (g_image_factories g) (g_north_pole g) (g_num_planes g) (g_expected_plane g) (g_minimum g) x (g_val g) (g_graphic_lat g) (g_ortho_center g) (g_pp g) (g_commands g).
Definition set_graphic_lat (x : bool) (g : globals) : globals :=
  Globals (g_filename g) (g_body g) (g_params g) (g_factory g) (g_samples g) (g_lines g) (g_create_grid g) (g_lat_interval g) (g_lon_interval g) (g_photo_factory g) (g_photo_factories g) (g_averaging g) (g_photo_parameters g) (g_view g) (g_image_factory g) (g_image_factories g) (g_north_pole g) (g_num_planes g) (g_expected_plane g) (g_minimum g) (g_maximum g) (g_val g) x (g_ortho_center g) (g_pp g) (g_commands g).
Definition set_ortho_center (x : ortho_center) (g : globals) : globals :=
  Globals (g_filename g) (g_body g) (g_params g) (g_factory g) (g_samples g) (g_lines g) (g_create_grid g) (g_lat_interval g) (g_lon_interval g) (g_photo_factory g) (g_photo_factories g) (g_averaging g) (g_photo_parameters g) (g_view g) (g_image_factory g) (g_image_factories g) (g_north_pole g) (g_num_planes g) (g_expected_plane g) (g_minimum g) (g_maximum g) (g_val g) (g_graphic_lat g) x (g_pp g) (g_commands g).
Definition set_pp (x : defaults) (g : globals) : globals :=
  Globals (g_filename g) (g_body g) (g_params g) (g_factory g) (g_samples g) (g_lines g) (g_create_grid g) (g_lat_interval g) (g_lon_interval g) (g_photo_factory g) (g_photo_factories g) (g_averaging g) (g_photo_parameters g) (g_view g) (g_image_factory g) (g_image_factories g) (g_north_pole g) (g_num_planes g) (g_expected_plane g) (g_minimum g) (g_maximum g) (g_val g) (g_graphic_lat g) (g_ortho_center g) x (g_commands g).
Definition set_commands (x : list map_command) (g : globals) : globals :=
  Globals (g_filename g) (g_body g) (g_params g) (g_factory g) (g_samples g) (g_lines g) (g_create_grid g) (g_lat_interval g) (g_lon_interval g) (g_photo_factory g) (g_photo_factories g) (g_averaging g) (g_photo_parameters g) (g_view g) (g_image_factory g) (g_image_factories g) (g_north_pole g) (g_num_planes g) (g_expected_plane g) (g_minimum g) (g_maximum g) (g_val g) (g_graphic_lat g) (g_ortho_center g) (g_pp g) x.
Definition set_val (v : var) (x : double) (g : globals) : globals :=
  Globals (g_filename g) (g_body g) (g_params g) (g_factory g) (g_samples g) (g_lines g) (g_create_grid g) (g_lat_interval g) (g_lon_interval g) (g_photo_factory g) (g_photo_factories g) (g_averaging g) (g_photo_parameters g) (g_view g) (g_image_factory g) (g_image_factories g) (g_north_pole g) (g_num_planes g) (g_expected_plane g) (g_minimum g) (g_maximum g) (fun k => if var_eqb k v then x else g_val g k) (g_graphic_lat g) (g_ortho_center g) (g_pp g) (g_commands g).

(** Initial values, src/parse.yy:316-389; globals without an initializer are
    zero. *)
Definition nan : double := B754_nan.
Definition globals_new : globals :=
  Globals EmptyString None None None 0 0 false (double_of_Z 0) (double_of_Z 0) None [] AVG_NONE None None None [] true 0 1
    None None
    (fun v => match v with
              | sample_center | line_center | lat_at_center | lon_at_center | max_lat => nan
              | km_per_pixel_val | arcsec_per_pix_val | focal_length_val | pixel_scale_val => double_of_Z (-1)
              | lo_lat => double_of_Z (-90) | hi_lat => double_of_Z 90 | lo_lon => double_of_Z 0
              | hi_lon => double_of_Z 360
              | sub_observ_lat | sub_observ_lon | position_angle_val => double_of_Z 0
              end)
    false (OrthoCenter DEFAULT (double_of_Z 0) (double_of_Z 0)) defaults_new [].

(** A semantic action: [Ok None] is YYERROR. *)
Definition act (A : Type) : Type := globals -> outcome (option (A * globals)).
Definition ret {A} (a : A) : act A := fun g => Ok (Some (a, g)).
Definition andthen {A B} (m : act A) (f : A -> act B) : act B := fun g =>
  match m g with
  | Ok (Some (a, g')) => f a g'
  | Ok None => Ok None
  | Throw e => Throw e
  | UB u => UB u
  end.
Definition reject {A} : act A := fun _ => Ok None.
Definition raise {A} (e : exn) : act A := fun _ => Throw e.
Definition update (f : globals -> globals) : act unit := fun g => Ok (Some (tt, f g)).
Definition read {A} (f : globals -> A) : act A := fun g => Ok (Some (f g, g)).
(** Use of a pointer. *)
Definition deref {A} (f : globals -> option A) : act A := fun g =>
  match f g with Some a => Ok (Some (a, g)) | None => UB ub_null end.
Definition of_parsed {A} (p : parsed A) : act A :=
  match p with Parsed a => ret a | Rejected => reject | Thrown e => raise e end.
Definition of_outcome {A} (o : outcome A) : act A := fun g =>
  match o with Ok a => Ok (Some (a, g)) | Throw e => Throw e | UB u => UB u end.
(** An exception a call may leave with. *)
Definition may_throw (e : option exn) : act unit := match e with Some e => raise e | None => ret tt end.
Definition optionally {A} (o : option A) (f : A -> act unit) : act unit :=
  match o with Some a => f a | None => ret tt end.
Fixpoint each {A} (f : A -> act unit) (l : list A) : act unit :=
  match l with [] => ret tt | a :: l => andthen (f a) (fun _ => each f l) end.

Notation "x <- m ;; k" := (andthen m (fun x => k)) (at level 61, m at next level, right associativity).
Notation "m ;; k" := (andthen m (fun _ => k)) (at level 61, right associativity).

Section Actions.
(** std::fmod; C::degree; OblateSpheroid::centric_latitude;
    C::astronomical_unit. *)
Context (fmod : double -> double -> double) (degree : double) (centric : body -> double -> double) (au : double).
(** The exceptions of the constructors of the map factories, of opening an image
    (PhotoImageFactory), and of a call on a viewing geometry after other calls. *)
Context (construct : projection -> option exn) (opens : string -> option exn)
  (refuses : body -> list vcall -> vcall -> option exn).

Local Notation Zc := double_of_Z.
Definition positive (x : double) : bool := flt (Zc 0) x.

(** latitude, longitude, src/parse.yy:2060-2127; they use the body of the map. *)
Definition a_latitude (l : lat_entry) : act double :=
  match le_kind l with
  | Centric => of_parsed (latitude (A := ar_double) Bopp degree (fun x => x) (le_suffix l) Centric (le_value l))
  | Graphic =>
      b <- deref g_body ;;
      of_parsed (latitude (A := ar_double) Bopp degree (centric b) (le_suffix l) Graphic (le_value l))
  end.
Definition a_longitude (l : lon_entry) : act double :=
  match lo_suffix l with
  | no_direction => of_parsed (longitude (A := ar_double) fmod true no_direction (lo_value l))
  | s => b <- deref g_body ;; of_parsed (longitude (A := ar_double) fmod (prograde b) s (lo_value l))
  end.
(** sub_observ, sub_solar, src/parse.yy:1703-1721. *)
Definition a_point (p : point_entry) : act (double * double) :=
  match p with
  | lat_first lat lon => x <- a_latitude lat ;; y <- a_longitude lon ;; ret (x, y)
  | lon_first lon lat => y <- a_longitude lon ;; x <- a_latitude lat ;; ret (x, y)
  end.
Definition a_angle (a : angle_entry) : act double :=
  of_parsed (position_angle (A := ar_double) fmod (ae_turn a) (ae_value a)).
Definition a_range (r : range_entry) : double := range (A := ar_double) au (re_unit r) (re_value r).

(** grid_interval and its relatives, src/parse.yy:766-810: not [x <= 0]. *)
Definition a_interval (x : double) (k : act unit) : act unit := if fle x (Zc 0) then raise invalid_argument else k.
Definition put_lat (x : double) : act unit := a_interval x (update (set_lat_interval x)).
Definition put_lon (x : double) : act unit := a_interval x (update (set_lon_interval x)).
Definition a_intervals (i : intervals) : act unit :=
  match i with
  | both_intervals x => a_interval x (update (set_lat_interval x) ;; update (set_lon_interval x))
  | lat_interval x => put_lat x
  | lon_interval x => put_lon x
  | lat_lon_interval a o => put_lat a ;; put_lon o
  | lon_lat_interval o a => put_lon o ;; put_lat a
  end.

(** plane_data_range, src/parse.yy:1024-1060. *)
Definition a_data_range (r : data_range) : act unit :=
  match r with
  | no_range => ret tt
  | min_only x => update (set_minimum (Some x))
  | max_only x => update (set_maximum (Some x))
  | min_max lo hi | max_min hi lo =>
      if flt lo hi then update (set_minimum (Some lo)) ;; update (set_maximum (Some hi)) else reject
  end.

(** Setting a side, lib/marc/PhotoImageParameters.cpp:62-127; src/parse.yy:1197-1201. *)
Definition put_side (s : side) (n : Z) (b : nibbles) : nibbles :=
  match s with
  | all_sides => Nibbles n n n n
  | left_side => Nibbles n (nb_right b) (nb_top b) (nb_bottom b)
  | right_side => Nibbles (nb_left b) n (nb_top b) (nb_bottom b)
  | top_side => Nibbles (nb_left b) (nb_right b) n (nb_bottom b)
  | bottom_side => Nibbles (nb_left b) (nb_right b) (nb_top b) n
  end.
(** nibble and its relatives, src/parse.yy:1189-1293: they set the parameters of
    the image, or if there are none the user's defaults, which are unsigned int. *)
Definition a_nibble (e : side * number) : act unit :=
  n <- of_parsed (nibble_size (snd e)) ;;
  o <- read g_photo_parameters ;;
  match o with
  | Some p => update (set_photo_parameters (Some (PhotoParameters (put_side (fst e) n (pr_nibbles p)) (pr_remove_sky p))))
  | None =>
      d <- read g_pp ;;
      update (set_pp (Defaults (d_lat_interval d) (d_lon_interval d) (d_minimum d) (d_maximum d)
                        (put_side (fst e) (n mod 2 ^ 32) (d_nibbles d))))
  end.

(** user_file_parse, src/parse.yy:541-555. *)
Definition a_user (u : user_entry) : act unit :=
  a_intervals (ue_intervals u) ;;
  a_data_range (ue_range u) ;;
  each a_nibble (ue_nibbling u) ;;
  la <- read g_lat_interval ;;
  lo <- read g_lon_interval ;;
  mi <- read g_minimum ;;
  ma <- read g_maximum ;;
  d <- read g_pp ;;
  update (set_pp (Defaults la lo
    (match mi with None => mi | Some _ => d_minimum d end)
    (match ma with None => ma | Some _ => d_maximum d end)
    (d_nibbles d))).

(** ** Images *)

(** A call on the viewing geometry. *)
Definition a_view (c : vcall) : act unit :=
  v <- deref g_view ;;
  may_throw (refuses (vw_body v) (vw_calls v) c) ;;
  update (set_view (Some (View (vw_body v) (vw_calls v ++ [c])))).
(** A call on the factory, src/PhotoImageFactory.cpp:152-189. *)
Definition a_photo (f : photo_factory -> photo_factory) : act unit :=
  p <- deref g_photo_factory ;; update (set_photo_factory (Some (f p))).

(** image_initialize, src/parse.yy:1153-1178; the constructors,
    src/PhotoImageFactory.cpp:39-51 and lib/marc/PhotoImageParameters.cpp:25-36. *)
Definition a_initialize (file : string) : act unit :=
  d <- read g_pp ;;
  update (set_photo_parameters (Some (PhotoParameters (d_nibbles d) false))) ;;
  b <- deref g_body ;;
  update (set_view (Some (View b []))) ;;
  may_throw (opens file) ;;
  update (set_photo_factory (Some (PhotoFactory file EmptyString false false false false None None))).

(** inversion, src/parse.yy:1295-1300. *)
Definition a_inversion (i : inversion) : act unit :=
  let set v h := a_photo (fun p => PhotoFactory (ph_file p) (ph_flat_field p) (ph_geometric_correction p) (ph_interpolate p)
                                     v h (ph_config p) (ph_geometry p)) in
  match i with vertical => set true false | horizontal => set false true | both_ways => set true true end.
(** image_interpolate, src/parse.yy:1302-1307. *)
Definition a_interpolate (b : bool) : act unit :=
  a_photo (fun p => PhotoFactory (ph_file p) (ph_flat_field p) (ph_geometric_correction p) b
                      (ph_invert_v p) (ph_invert_h p) (ph_config p) (ph_geometry p)).
(** remove_sky, src/parse.yy:1309-1313. *)
Definition a_remove_sky (b : bool) : act unit :=
  p <- deref g_photo_parameters ;;
  update (set_photo_parameters (Some (PhotoParameters (pr_nibbles p) b))).
(** flat_field, src/parse.yy:1390-1396. *)
Definition a_flat_field (s : string) : act unit :=
  a_photo (fun p => PhotoFactory (ph_file p) s (ph_geometric_correction p) (ph_interpolate p)
                      (ph_invert_v p) (ph_invert_h p) (ph_config p) (ph_geometry p)).
(** geom_correct, src/parse.yy:1407-1418. *)
Definition a_geom_correct (b : bool) : act unit :=
  a_photo (fun p => PhotoFactory (ph_file p) (ph_flat_field p) b (ph_interpolate p)
                      (ph_invert_v p) (ph_invert_h p) (ph_config p) (ph_geometry p)).
(** optical_axis, src/parse.yy:1817-1823. *)
Definition a_axis (a : axis_entry) : act unit :=
  match a with
  | sample_line_oa s l => a_view (v_optical_axis s l)
  | line_sample_oa l s => a_view (v_optical_axis s l)
  end.
(** centers, src/parse.yy:1769-1815. *)
Definition a_centers (c : centers) : act unit :=
  match c with
  | sample_line s l | line_sample l s => update (set_val sample_center s) ;; update (set_val line_center l)
  | at_center p => x <- a_point p ;; update (set_val lat_at_center (fst x)) ;; update (set_val lon_at_center (snd x))
  end.
(** km_per_pixel, arcsec_per_pix, lens_geometry, src/parse.yy:1442-1477 and
    1756-1767. *)
Definition a_km_per_pixel (x : double) : act unit :=
  if positive x then update (set_val km_per_pixel_val x) else reject.
Definition a_scale (s : scale_entry) : act unit :=
  match s with
  | km_per_pixel x => a_km_per_pixel x
  | arcsec_per_pix x => if positive x then update (set_val arcsec_per_pix_val x) else reject
  | focal_scale f s | scale_focal s f => update (set_val focal_length_val f) ;; update (set_val pixel_scale_val s)
  end.

(** If the value is positive: the call, then -1 again. *)
Definition a_use_positive (v : var) (call : double -> vcall) : act unit :=
  x <- read (fun g => g_val g v) ;;
  if positive x then a_view (call x) ;; update (set_val v (Zc (-1))) else ret tt.
(** If both values are numbers. *)
Definition a_use_numbers (v w : var) (call : double -> double -> vcall) : act unit :=
  x <- read (fun g => g_val g v) ;;
  y <- read (fun g => g_val g w) ;;
  if negb (is_nan x) && negb (is_nan y)
  then a_view (call x y) ;; update (set_val v nan) ;; update (set_val w nan) else ret tt.

(** image_setup, src/parse.yy:1087-1151. *)
Definition a_image (i : image_entry) : act unit :=
  a_initialize (ie_file i) ;;
  each a_nibble (ie_nibbling i) ;;
  optionally (ie_inversion i) a_inversion ;;
  optionally (ie_interpolate i) a_interpolate ;;
  optionally (ie_remove_sky i) a_remove_sky ;;
  a_centers (ie_centers i) ;;
  optionally (ie_axis i) a_axis ;;
  optionally (ie_flat_field i) a_flat_field ;;
  optionally (ie_geom_correct i) a_geom_correct ;;
  optionally (ie_emi_ang_limit i) (fun x => a_view (v_emi_ang_limit x)) ;;
  optionally (ie_terminator i) (fun b => a_view (v_use_terminator b)) ;;
  o <- a_point (ie_sub_observ i) ;;
  n <- a_angle (ie_position_angle i) ;;
  s <- a_point (ie_sub_solar i) ;;
  a_scale (ie_scale i) ;;
  a_view (v_sub_observ (fst o) (snd o)) ;;
  a_view (v_position_angle n) ;;
  a_view (v_sub_solar (fst s) (snd s)) ;;
  a_view (v_range (a_range (ie_range i))) ;;
  a_use_positive km_per_pixel_val v_km_per_pixel ;;
  a_use_positive arcsec_per_pix_val v_arcsec_per_pixel ;;
  a_use_positive focal_length_val v_focal_length ;;
  a_use_positive pixel_scale_val v_scale ;;
  a_use_numbers sample_center line_center v_body_center ;;
  a_use_numbers lat_at_center lon_at_center v_lat_lon_center ;;
  f <- deref g_photo_factory ;;
  c <- read g_photo_parameters ;;
  v <- read g_view ;;
  l <- read g_photo_factories ;;
  update (set_photo_factories (l ++ [PhotoFactory (ph_file f) (ph_flat_field f) (ph_geometric_correction f) (ph_interpolate f)
                                       (ph_invert_v f) (ph_invert_h f) c v])) ;;
  update (set_photo_parameters None) ;;
  update (set_view None) ;;
  update (set_photo_factory None).

(** ** Planes *)

Definition make_factory (s : source_factory) : act unit := update (set_image_factory (Some (ImageFactory s ex_empty))).

(** lat_type, src/parse.yy:1899-1909. *)
Definition a_lat_type (k : option lat_kind) : act unit :=
  optionally k (fun k => update (set_graphic_lat (match k with Centric => false | Graphic => true end))).

(** plane_type, src/parse.yy:1062-1081 and 1315-1388. *)
Definition a_plane_type (t : plane_type) : act unit :=
  match t with
  | T_image i more =>
      a_image i ;;
      each a_image more ;;
      l <- read g_photo_factories ;;
      match l with
      | [p] => make_factory (F_photo p) ;; update (set_photo_factories [])
      | _ =>
          a <- read g_averaging ;;
          l <- of_outcome (Command_Model.mosaic_new l) ;;
          make_factory (F_mosaic l a) ;; update (set_photo_factories [])
      end
  | T_mu o r s =>
      o <- a_point o ;;
      optionally s (fun s => a_point s ;; ret tt) ;;
      b <- deref g_body ;;
      make_factory (F_mu b (fst o) (snd o) (a_range r))
  | T_mu0 o s =>
      optionally o (fun o => a_point (fst o) ;; ret tt) ;;
      s <- a_point s ;;
      b <- deref g_body ;;
      make_factory (F_mu0 b (fst s) (snd s))
  | T_phase o r s =>
      o <- a_point o ;;
      s <- a_point s ;;
      b <- deref g_body ;;
      make_factory (F_phase b (fst o) (snd o) (fst s) (snd s) (a_range r))
  | T_latitude k =>
      a_lat_type k ;;
      b <- deref g_body ;;
      g <- read g_graphic_lat ;;
      make_factory (F_latitude b g)
  | T_longitude => make_factory F_longitude
  end.

(** plane_size, src/parse.yy:971-1022; the number becomes a size_t. *)
Definition a_plane_size (n : option number) : act unit :=
  optionally n (fun n =>
    n <- of_parsed (integer n) ;;
    p <- read g_num_planes ;;
    if p =? 0 then reject
    else
      e <- read g_expected_plane ;;
      if wrap n =? e then
        if wrap n <=? p then update (set_expected_plane (wrap (e + 1))) else reject
      else reject) ;;
  d <- read g_pp ;;
  update (set_minimum (d_minimum d)) ;;
  update (set_maximum (d_maximum d)).

(** plane_setup, src/parse.yy:956-969; SourceImageFactory::minimum and maximum
    of a new factory, src/SourceImageFactory.cpp:14-28. *)
Definition a_plane (p : plane_entry) : act unit :=
  a_plane_size (pe_number p) ;;
  a_data_range (pe_range p) ;;
  a_plane_type (pe_type p) ;;
  f <- deref g_image_factory ;;
  mi <- read g_minimum ;;
  ex <- (match mi with Some x => of_outcome (ex_set_min (if_limits f) x) | None => ret (if_limits f) end) ;;
  ma <- read g_maximum ;;
  ex <- (match ma with Some x => of_outcome (ex_set_max ex x) | None => ret ex end) ;;
  l <- read g_image_factories ;;
  update (set_image_factories (l ++ [ImageFactory (if_source f) ex])) ;;
  update (set_image_factory None) ;;
  update (set_photo_factories []).

(** ** Projections *)

Definition a_averaging (o : option average) : act unit := optionally o (fun a => update (set_averaging a)).
Definition a_construct (p : projection) : act unit :=
  may_throw (construct p) ;; update (set_factory (Some p)).

(** The action of ortho_optsub on centers, src/parse.yy:1639-1658 and
    1673-1697. *)
Definition a_ortho_centers : act unit :=
  s <- read (fun g => g_val g sample_center) ;;
  l <- read (fun g => g_val g line_center) ;;
  if negb (is_nan s) && negb (is_nan l) then
    update (set_ortho_center (OrthoCenter CENTER_GIVEN s l)) ;;
    update (set_val sample_center nan) ;; update (set_val line_center nan)
  else
    x <- read (fun g => g_val g lat_at_center) ;;
    y <- read (fun g => g_val g lon_at_center) ;;
    if negb (is_nan x) && negb (is_nan y) then
      update (set_ortho_center (OrthoCenter LAT_LON_GIVEN x y)) ;;
      update (set_val lat_at_center nan) ;; update (set_val lon_at_center nan)
    else ret tt.

Definition read_option {A} (o : option A) {B} (f : A -> act B) : act (option B) :=
  match o with Some a => b <- f a ;; ret (Some b) | None => ret None end.

(** ortho_optsub, src/parse.yy:1631-1699. *)
Definition a_ortho_options (o : ortho_options) : act unit :=
  so <- read_option (oo_sub_observ o) a_point ;;
  pa <- read_option (oo_position_angle o) a_angle ;;
  optionally (oo_km_per_pixel o) a_km_per_pixel ;;
  optionally (oo_centers o) a_centers ;;
  optionally so (fun p => update (set_val sub_observ_lat (fst p)) ;; update (set_val sub_observ_lon (snd p))) ;;
  optionally pa (fun x => update (set_val position_angle_val x)) ;;
  optionally (oo_centers o) (fun _ => a_ortho_centers).

(** lat_range, src/parse.yy:1919-1949. *)
Definition a_lat_range (r : lat_range) : act unit :=
  x <- match r with
       | lo_hi_lat lo hi => x <- a_latitude lo ;; y <- a_latitude hi ;; ret (x, y)
       | hi_lo_lat hi lo => y <- a_latitude hi ;; x <- a_latitude lo ;; ret (x, y)
       end ;;
  if flt (fst x) (snd x)
  then update (set_val lo_lat (fst x)) ;; update (set_val hi_lat (snd x)) else reject.
(** lon_range, src/parse.yy:1951-1962. *)
Definition a_lon_range (r : lon_range) : act unit :=
  x <- match r with
       | lo_hi_lon lo hi => x <- a_longitude lo ;; y <- a_longitude hi ;; ret (x, y)
       | hi_lo_lon hi lo => y <- a_longitude hi ;; x <- a_longitude lo ;; ret (x, y)
       end ;;
  update (set_val lo_lon (fst x)) ;; update (set_val hi_lon (snd x)).

(** mercator, ortho, p_stereo, simple_c, src/parse.yy:1595-1628, 1852-1897. *)
Definition a_projection (p : projection_entry) : act unit :=
  match p with
  | T_mercator o =>
      optionally o a_averaging ;;
      b <- deref g_body ;;
      a_construct (Mercator b)
  | T_ortho o =>
      optionally o (fun o => a_averaging (fst o) ;; a_ortho_options (snd o)) ;;
      b <- deref g_body ;;
      v <- read g_val ;;
      c <- read g_ortho_center ;;
      a_construct (Orthographic b (v sub_observ_lat) (v sub_observ_lon) (v position_angle_val) (v km_per_pixel_val) (used_center c)) ;;
      update (set_val sub_observ_lat (Zc 0)) ;;
      update (set_val sub_observ_lon (Zc 0)) ;;
      update (set_val km_per_pixel_val (Zc (-1))) ;;
      update (set_val position_angle_val (Zc 0)) ;;
      update (set_ortho_center (OrthoCenter DEFAULT (oc_sample_lat c) (oc_line_lon c)))
  | T_p_stereo o =>
      optionally o (fun '(a, north, m) =>
        a_averaging a ;;
        update (set_north_pole north) ;;
        optionally m (fun m => x <- a_latitude m ;; update (set_val max_lat x))) ;;
      b <- deref g_body ;;
      v <- read g_val ;;
      n <- read g_north_pole ;;
      a_construct (PolarStereographic b (v max_lat) n) ;;
      update (set_val max_lat nan) ;;
      update (set_north_pole true)
  | T_simple_c o =>
      optionally o (fun '(a, k, lats, lons) =>
        a_averaging a ;; a_lat_type k ;; optionally lats a_lat_range ;; optionally lons a_lon_range) ;;
      b <- deref g_body ;;
      v <- read g_val ;;
      g <- read g_graphic_lat ;;
      a_construct (SimpleCylindrical b (v lo_lat) (v hi_lat) (v lo_lon) (v hi_lon) g) ;;
      update (set_val lo_lat (Zc (-90))) ;;
      update (set_val hi_lat (Zc 90)) ;;
      update (set_val lo_lon (Zc 0)) ;;
      update (set_val hi_lon (Zc 360)) ;;
      update (set_graphic_lat false)
  end.

(** ** Maps *)

(** A call on the map parameters. *)
Definition a_params (f : params -> act params) : act unit :=
  p <- deref g_params ;; p <- f p ;; update (set_params (Some p)).

(** map_entry, src/parse.yy:614-633. *)
Definition a_map_entry (file : string) : act unit :=
  update (set_filename file) ;;
  p <- of_outcome (params_new 0) ;;
  update (set_params (Some p)) ;;
  update (set_create_grid false) ;;
  update (set_image_factories []) ;;
  update (set_averaging AVG_WEIGHTED) ;;
  update (set_num_planes 0) ;;
  update (set_expected_plane 1).

(** body, src/parse.yy:877-890. *)
Definition a_body (name : string) (e : radii_entry ar_double) (pro : bool) : act unit :=
  a_params (fun p => ret (set_str k_object name p)) ;;
  b <- of_outcome (body_spheroid pro e) ;;
  update (set_body (Some b)).

(** grid, src/parse.yy:744-756. *)
Definition a_grid (o : option (bool * option intervals)) : act unit :=
  optionally o (fun '(yes, i) =>
    (if yes : bool
     then
       update (set_create_grid true) ;;
       d <- read g_pp ;;
       update (set_lat_interval (d_lat_interval d)) ;;
       update (set_lon_interval (d_lon_interval d))
     else update (set_create_grid false)) ;;
    optionally i a_intervals).

(** map_setup, src/parse.yy:562-612. *)
Definition a_map (m : map_entry) : act unit :=
  a_map_entry (me_file m) ;;
  optionally (me_author m) (fun s => a_params (fun p => ret (set_str k_author s p))) ;;
  optionally (me_origin m) (fun s => a_params (fun p => ret (set_str k_origin s p))) ;;
  each (fun s => a_params (fun p => ret (push_comment s p))) (me_comments m) ;;
  each (fun s => a_params (fun p => ret (push_xcomment s p))) (me_xcomments m) ;;
  a_body (me_body m) (me_radii m) (me_prograde m) ;;
  optionally (me_offset m) (fun x => a_params (fun p => ret (set_dbl k_bzero (Some x) p))) ;;
  optionally (me_scale m) (fun x => a_params (fun p => ret (set_dbl k_bscale (Some x) p))) ;;
  optionally (me_type m) (fun t => a_params (fun p => of_outcome (set_bitpix t p))) ;;
  optionally (me_blank m) (fun n => a_params (fun p => of_parsed (data_blank n p))) ;;
  a_grid (me_grid m) ;;
  a_projection (me_projection m) ;;
  optionally (me_planes m) (fun n => n <- of_parsed (positive_size n) ;; update (set_num_planes n)) ;;
  n <- of_parsed (positive_size (me_samples m)) ;;
  update (set_samples n) ;;
  n <- of_parsed (positive_size (me_lines m)) ;;
  update (set_lines n) ;;
  a_plane (me_plane m) ;;
  each a_plane (me_more_planes m) ;;
  planes <- read g_num_planes ;;
  images <- read g_image_factories ;;
  if (0 <? planes) && negb (Z.of_nat (List.length images) =? planes) then reject
  else
    file <- read g_filename ;;
    samples <- read g_samples ;;
    lines <- read g_lines ;;
    factory <- deref g_factory ;;
    p <- deref g_params ;;
    grid <- read g_create_grid ;;
    la <- read g_lat_interval ;;
    lo <- read g_lon_interval ;;
    c <- read g_commands ;;
    update (set_filename EmptyString) ;;
    update (set_factory None) ;;
    update (set_params None) ;;
    update (set_image_factories []) ;;
    update (set_commands (c ++ [MapCommand file samples lines factory p (if grid then Some (la, lo) else None) images])).

(** A file, and all files of a run in turn (src/marc.cpp:191-219): the parser
    starts again, the globals and [pp] remain. *)
Definition a_file (t : input_text) : act unit :=
  match t with
  | user_text u => a_user u
  | map_text m more => a_map m ;; each a_map more
  end.
Definition a_files (l : list input_text) : act unit := each a_file l.

(** The commands of a run. *)
Definition run_parser (l : list input_text) : outcome (option (list map_command)) :=
  match a_files l globals_new with
  | Ok (Some (_, g)) => Ok (Some (g_commands g))
  | Ok None => Ok None
  | Throw e => Throw e
  | UB u => UB u
  end.

End Actions.
