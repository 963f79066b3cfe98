(** The whole program: the commands that the parser makes, carried out.  The
    parts modelled elsewhere are put together; the parser is given the
    constructors, setters and files it calls. *)
From Coq Require Import List ZArith Bool String.
From Flocq Require Import Core BinarySingleNaN.
From Verif Require Import Base Flt Num Maths_Model Spheroid_Model Extrema_Model MakeMap_Model Proj_Model Ortho_Model
  Virtual_Model Params_Model Photo_Model Command_Model Input_Model Parse_Model.
From Verif Require View_Model.
Import ListNotations.
Open Scope Z_scope.

Definition place : Type := (double * double)%type.

(** What the program calls and the model leaves open: libm and the constants
    (as doubles), the arithmetic of [long double], MaRC::root_find, MaRC::quadratic_roots and the geometry of a
    body in doubles (Mathematics.h, root_find.cpp and OblateSpheroid.cpp are
    modelled over the reals), the contents of files, and a ready viewing
    geometry (ViewingGeometry.cpp, over the reals in [View_Model]). *)
Record outside := Outside {
  x_libm : libm ar_double;
  x_scale : scale_libm;
  x_long : wide ar_double;
  x_fmod : double -> double -> double;
  x_acos : double -> double;
  x_circle : double;
  x_au : double;
  x_max_range : double;
  x_find : double -> double -> double -> (double -> double) -> outcome double;
  x_roots : double -> double -> double -> option (double * double);
  x_graphic : body -> double -> double;
  x_centric : body -> double -> double;
  x_radius : body -> double -> double;
  x_eccentricity : body -> double;
  x_mu : body -> double -> double -> double -> double -> double -> double;
  x_mu0 : body -> double -> double -> double -> double -> double;
  x_cos_phase : body -> double -> double -> double -> double -> double -> double -> double -> double;
  x_file : string -> fits_file ar_double;
  x_header : string -> header;
  x_geometry : body -> View_Model.geom ar_double -> bool -> raw_geometry ar_double place }.

Section Run.
Context (X : outside).
Local Notation L := (x_libm X).
Local Notation not_a_number := (B754_nan : double).

(** The exception a constructor leaves with. *)
Definition thrown {A} (o : outcome A) : option exn := match o with Throw e => Some e | _ => None end.

(** ** Projections *)

Definition ortho_of (b : body) (lat lon pa kpp : double) (c : Ortho_Model.center ar_double) : outcome (ortho ar_double) :=
  ortho_new (A := ar_double) L (x_acos X) not_a_number (prograde b) (eq_rad b) (pol_rad b) (x_radius X b) lat lon pa kpp c.

(** The constructors of the map factories. *)
Definition constructs (p : projection) : option exn :=
  match p with
  | Mercator _ => None
  | Orthographic b lat lon pa kpp c => thrown (ortho_of b lat lon pa kpp c)
  | PolarStereographic b m n => thrown (polar_new (A := ar_double) L m n)
  | SimpleCylindrical b lo hi lo' hi' g => thrown (simple_cyl_new (A := ar_double) L (x_graphic X b) lo hi lo' hi' g)
  end.

(** [plot_map] of the factory: the calls of the plot functor and how it ends. *)
Definition calls_of (p : projection) (samples lines : Z) : list (place * Z) * outcome Z :=
  match p with
  | Mercator b => mercator_plot_map (A := ar_double) L (prograde b) (x_eccentricity X b) (x_centric X b) (x_find X) samples lines
  | Orthographic b lat lon pa kpp c =>
      match ortho_of b lat lon pa kpp c with
      | Ok o => ortho_plot_map (A := ar_double) L (x_roots X) (prograde b) (eq_rad b) (pol_rad b) o samples lines
      | Throw e => ([], Throw e)
      | UB u => ([], UB u)
      end
  | PolarStereographic b m n =>
      match polar_new (A := ar_double) L m n with
      | Ok q => polar_plot_map (A := ar_double) L (prograde b) (eq_rad b) (x_eccentricity X b) (x_graphic X b) (x_centric X b)
                  (x_find X) q samples lines
      | Throw e => ([], Throw e)
      | UB u => ([], UB u)
      end
  | SimpleCylindrical b lo hi lo' hi' g =>
      match simple_cyl_new (A := ar_double) L (x_graphic X b) lo hi lo' hi' g with
      | Ok q => sc_plot_map (A := ar_double) (prograde b) (x_centric X b) q samples lines
      | Throw e => ([], Throw e)
      | UB u => ([], UB u)
      end
  end.

(** [make_grid] of the factory, src/MapCommand.cpp:197-206. *)
Definition grid_of (fuel : nat) (p : projection) (samples lines : Z) (lat lon : double) : option (outcome (list Z)) :=
  make_grid samples lines (fun g =>
    match p with
    | Mercator b => mercator_plot_grid (A := ar_double) L (prograde b) (x_eccentricity X b) (x_graphic X b) fuel samples lines lat lon g
    | Orthographic b lat' lon' pa kpp c =>
        match ortho_of b lat' lon' pa kpp c with
        | Ok o => ortho_plot_grid (A := ar_double) L (x_acos X) double_ssize (prograde b) (eq_rad b) (pol_rad b) (x_radius X b)
                    o fuel samples lines lat lon g
        | Throw e => Some (Throw e)
        | UB u => Some (UB u)
        end
    | PolarStereographic b m n =>
        match polar_new (A := ar_double) L m n with
        | Ok q => polar_plot_grid (A := ar_double) L (eq_rad b) (x_eccentricity X b) (x_graphic X b) q fuel samples lines lat lon g
        | Throw e => Some (Throw e)
        | UB u => Some (UB u)
        end
    | SimpleCylindrical b lo hi lo' hi' gr =>
        match simple_cyl_new (A := ar_double) L (x_graphic X b) lo hi lo' hi' gr with
        | Ok q => sc_plot_grid (A := ar_double) L (prograde b) q fuel samples lines lat lon g
        | Throw e => Some (Throw e)
        | UB u => Some (UB u)
        end
    end).

(** [projection_name], lib/marc/Mercator.cpp:84-88,
    lib/marc/Orthographic.cpp:293-297, lib/marc/PolarStereographic.cpp:134-138,
    lib/marc/SimpleCylindrical.cpp:99-103. *)
Definition name_of (p : projection) : string :=
  match p with
  | Mercator _ => "Mercator"
  | Orthographic _ _ _ _ _ _ => "Orthographic"
  | PolarStereographic _ _ _ => "Polar Stereographic"
  | SimpleCylindrical _ _ _ _ _ _ => "Simple Cylindrical"
  end.

(** ** Viewing geometries *)

(** Constructor, lib/marc/ViewingGeometry.cpp:94-122. *)
Definition geom_new : View_Model.geom ar_double := fun m =>
  match m with View_Model.mu_limit_ => double_of_Z 0 | _ => not_a_number end.

(** A call of the parser on the geometry; use_terminator,
    lib/marc/ViewingGeometry.cpp:839-843, is kept apart. *)
Definition call_on (b : body) (c : vcall) (g : View_Model.geom ar_double) : View_Model.result ar_double :=
  let deg := l_degree L in
  match c with
  | v_sub_observ lat lon =>
      View_Model.set_lat_lon (A := ar_double) deg (l_2pi L) View_Model.sub_observ_lat_ View_Model.sub_observ_lon_ lat lon g
  | v_position_angle x => View_Model.set_position_angle (A := ar_double) deg x g
  | v_sub_solar lat lon =>
      View_Model.set_lat_lon (A := ar_double) deg (l_2pi L) View_Model.sub_solar_lat_ View_Model.sub_solar_lon_ lat lon g
  | v_range x => View_Model.set_range (A := ar_double) (x_max_range X) (eq_rad b) (pol_rad b) x g
  | v_km_per_pixel x => View_Model.set_positive (A := ar_double) View_Model.km_per_pixel_ x g
  | v_arcsec_per_pixel x => View_Model.set_arcsec_per_pixel (A := ar_double) (l_pi L) x g
  | v_focal_length x => View_Model.set_positive (A := ar_double) View_Model.focal_length_ x g
  | v_scale x => View_Model.set_positive (A := ar_double) View_Model.scale_ x g
  | v_body_center s l =>
      View_Model.set_positions (A := ar_double) View_Model.sample_center_ View_Model.line_center_ s l g
  | v_lat_lon_center lat lon =>
      View_Model.set_lat_lon (A := ar_double) deg (l_2pi L) View_Model.lat_at_center_ View_Model.lon_at_center_ lat lon g
  | v_optical_axis s l => View_Model.set_positions (A := ar_double) View_Model.OA_s_ View_Model.OA_l_ s l g
  | v_emi_ang_limit x => View_Model.set_emi_ang_limit (A := ar_double) deg (l_cos L) x g
  | v_use_terminator _ => (g, None)
  end.
Definition geom_after (b : body) (calls : list vcall) : View_Model.geom ar_double :=
  fold_left (fun g c => fst (call_on b c g)) calls geom_new.
Definition terminator_after (calls : list vcall) : bool :=
  fold_left (fun t c => match c with v_use_terminator u => u | _ => t end) calls false.
Definition refuses (b : body) (before : list vcall) (c : vcall) : option exn := snd (call_on b c (geom_after b before)).

(** ** Images *)

Definition opens (file : string) : option exn := thrown (open_file (x_file X file)).

Definition photo_of (f : photo_factory) (limits : extrema (ct F64)) : photo_source ar_double place :=
  PhotoSource (x_file X (Parse_Model.ph_file f))
    (match Parse_Model.ph_flat_field f with EmptyString => None | s => Some (x_file X s) end)
    (ph_geometric_correction f) (ph_interpolate f) (ph_invert_v f) (ph_invert_h f)
    (option_map (fun c => let n := pr_nibbles c in
       (Photo_Model.Nibbles (nb_left n) (nb_right n) (nb_top n) (nb_bottom n), pr_remove_sky c)) (Parse_Model.ph_config f))
    (option_map (fun v => x_geometry X (vw_body v) (geom_after (vw_body v) (vw_calls v)) (terminator_after (vw_calls v)))
       (Parse_Model.ph_geometry f))
    limits.
Definition photo_make_of (f : photo_factory) (limits : extrema (ct F64)) :=
  Input_Model.photo_make (A := ar_double) (P := place) not_a_number (photo_of f limits).

(** [MosaicImageFactory::make], src/MosaicImageFactory.cpp:74-118: the photos in
    turn; reading through a null photo is undefined. *)
Fixpoint photos_of (l : list photo_factory) : outcome (list (option (photo ar_double place))) :=
  match l with
  | [] => Ok []
  | f :: l => bind (photo_make_of f ex_empty) (fun r => bind (photos_of l) (fun ps => Ok (fst r :: ps)))
  end.
(** make_compositor, src/MosaicImageFactory.cpp:22-39. *)
Definition composite (a : average) (photos : list (option (photo ar_double place))) (at_ : place) (data : double)
  : outcome (Z * double) :=
  let images := map (fun p : option (photo ar_double place) =>
    match p with Some p => photo_read p at_ | None => fun _ => UB ub_null end) photos in
  let weighted := map (fun p : option (photo ar_double place) =>
    match p with Some p => photo_read_w p at_ true | None => fun _ _ => UB ub_null end) photos in
  match a with
  | AVG_NONE => first_read (A := ar_double) images data
  | AVG_UNWEIGHTED => unweighted_average (A := ar_double) (x_long X) images data
  | AVG_WEIGHTED => weighted_average (A := ar_double) (x_long X) weighted data
  end.
Definition limits_in (f : photo_factory) : photo_limits :=
  let file := x_file X (Parse_Model.ph_file f) in
  let value k := match k with key_value x => Some x | _ => None end in
  PhotoLimits ex_empty (value (ff_datamin file)) (value (ff_datamax file)).

(** A computed image.  When nothing is read the value of the argument does not
    matter to the callers and is left alone. *)
Definition computed (t : mapty) (k : Virtual_Model.plane) (physical : double -> double -> outcome (option double))
    (limits : extrema (ct F64)) : outcome (option simage * extrema (ct F64)) :=
  bind (make_virtual (x_scale X) t k limits) (fun '(scale, offset, ex) =>
  Ok (Some (SImage
        (fun at_ data =>
           bind (read_virtual (A := ar_double) scale offset physical (fst at_) (snd at_)) (fun r =>
           Ok (match r with Some d => (true, d) | None => (false, data) end)))
        (Some (virtual_scale (A := ar_double) scale, virtual_offset (A := ar_double) scale offset))), ex)).

Definition make_of (f : image_factory) (t : mapty) : outcome (option simage * extrema (ct F64)) :=
  let limits := if_limits f in
  match if_source f with
  | F_photo p =>
      bind (photo_make_of p limits) (fun '(o, s) =>
      Ok (option_map (fun p => SImage (photo_read (A := ar_double) (P := place) p) None) o, ps_limits s))
  | F_mosaic l a =>
      bind (photos_of l) (fun photos =>
      bind (mosaic_make (map limits_in l) limits) (fun ex =>
      Ok (Some (SImage (fun at_ => mosaic_read (A := ar_double) (composite a photos at_)) None), ex)))
  | F_mu b lat lon range => computed t mu_plane (mu_data (A := ar_double) L (x_mu X b) lat lon range) limits
  | F_mu0 b lat lon => computed t mu0_plane (mu0_data (A := ar_double) L (x_mu0 X b) lat lon) limits
  | F_phase b lat lon slat slon range =>
      computed t cos_phase_plane (cos_phase_data (A := ar_double) L (x_cos_phase X b) lat lon slat slon range) limits
  | F_latitude b graphic => computed t latitude_plane (latitude_data (A := ar_double) L (x_graphic X b) graphic) limits
  | F_longitude => computed t longitude_plane (longitude_data (A := ar_double) (x_circle X) (l_degree L) (x_fmod X)) limits
  end.
Definition parameters_of (f : image_factory) : source :=
  match if_source f with
  | F_photo p => Params_Model.photo (x_header X (Parse_Model.ph_file p))
  | F_mosaic l _ => mosaic (map (fun p => x_header X (Parse_Model.ph_file p)) l)
  | F_mu _ _ _ _ | F_mu0 _ _ _ | F_phase _ _ _ _ _ _ => cosines
  | F_latitude _ _ | F_longitude => degrees
  end.
Definition factory_of (f : image_factory) : factory := Factory (parameters_of f) (make_of f).

(** ** Commands *)

(** The command as [Command_Model] has it; [None] if plot_map leaves with an
    exception or drawing the grid takes more than [fuel] steps. *)
Definition command_of (fuel : nat) (m : map_command) : option command :=
  match calls_of (mc_projection m) (mc_samples m) (mc_lines m) with
  | (calls, Ok _) =>
      let c grid := Command (mc_samples m) (mc_lines m) (name_of (mc_projection m)) calls grid
                      (map factory_of (mc_images m)) (mc_params m) in
      match mc_grid m with
      | None => Some (c None)
      | Some (lat, lon) =>
          match grid_of fuel (mc_projection m) (mc_samples m) (mc_lines m) lat lon with
          | Some g => Some (c (Some g))
          | None => None
          end
      end
  | _ => None
  end.

(** The parser with these constructors, setters and files: the commands of the
    input files. *)
Definition commands_of (l : list input_text) : outcome (option (list map_command)) :=
  run_parser (x_fmod X) (l_degree L) (x_centric X) (x_au X) constructs opens refuses l.
End Run.
