(** C100 to C104: what the elements of the file of a map are. *)
From Coq Require Import List ZArith Bool Reals String.
From Flocq Require Import Core BinarySingleNaN.
From Verif Require Import Base Flt Num Maths_Model Spheroid_Model Extrema_Model Extrema_Spec MakeMap_Model MakeMap_Spec Proj_Model Proj_Spec
  Virtual_Model Virtual_Spec Params_Model Command_Model Command_Spec Entry_Model Parse_Model Parse_Spec Run_Model Run_Spec
  Run_Proofs RunPlane_Proofs RunCase_Proofs.
Import ListNotations.
Open Scope R_scope.

(** C100: if no call of CFITSIO fails and the command succeeds, each element of
    plane [j] is what the image shows at the point the projection plots there,
    and the header scales the plane as the image says. *)
Theorem C100_elements : forall X fuel status left_over removable m c w w' r,
  (forall n, status n = 0%Z) -> from_input X m -> fits_size m ->
  command_of X fuel m = Some c -> execute status left_over removable c w = (w', Ok r) ->
  exists p t axes cards d rest o,
    populate_map_parameters (map (parameters_of X) (mc_images m)) (mc_params m) = Ok p /\
    type_of_bitpix (p_bitpix p) = Some t /\
    w_file w' = new_file (Hdu t axes cards d :: rest) /\
    calls_of X (mc_projection m) (mc_samples m) (mc_lines m) = (c_calls c, Ok o) /\
    forall j f, nth_error (mc_images m) j = Some f ->
    exists image ex before after, make_of X f t = Ok (Some image, ex) /\
    cards = (before ++ scaling_cards p (Z.of_nat (List.length (mc_images m))) (Z.of_nat j + 1) image ++ after)%list /\
    forall lo hi, plane_limits t ex lo hi ->
    exists blank, blank_of t (p_blank p) = Some blank /\
    forall k i, (0 <= k < mc_lines m)%Z -> (0 <= i < mc_samples m)%Z ->
    exists v, d (element m (Z.of_nat j) k i) = Some (existT _ t v) /\
      shows t (si_read image) lo hi blank (c_calls c) (k * mc_samples m + i)%Z v.
Proof. intros X fuel status left_over removable m c w w' r fine I. exact (elements X fuel status left_over removable m c w w' r fine (input_ready X m I)). Qed.
Print Assumptions C100_elements.
Example C100_elements_case : exists m c w' r,
  commands_of the_program (texts None [(the_map (T_latitude None), [])]) = Ok (Some [m]) /\ from_input the_program m /\
  command_of the_program 0 m = Some c /\ execute (fun _ => 0%Z) (fun _ _ => None) true c (World old_file 0) = (w', Ok r) /\
  peek the_cells (w_file w') =
    Some [None; Some (-4500); Some (-4500); Some (-4500); Some (-4500); Some 4500; Some 4500; Some 4500; Some 4500; None]%Z.
Proof. apply first_run_inv. vm_compute. reflexivity. Qed.

(** C101: in a computed plane without limits, in any projection and of any type,
    a plotted element stands for the number computed at the point, to within a
    step of the type; if nothing is computed there it is blank. *)
Theorem C101_computed : forall X fuel status left_over removable m c w w' r j f p physical,
  (forall n, status n = 0%Z) -> from_input X m -> fits_size m -> accurate (x_scale X) ->
  command_of X fuel m = Some c -> execute status left_over removable c w = (w', Ok r) ->
  nth_error (mc_images m) j = Some f -> if_limits f = ex_empty -> computes X (if_source f) p physical ->
  exists params t axes cards d rest o,
    populate_map_parameters (map (parameters_of X) (mc_images m)) (mc_params m) = Ok params /\
    type_of_bitpix (p_bitpix params) = Some t /\
    w_file w' = new_file (Hdu t axes cards d :: rest) /\
    calls_of X (mc_projection m) (mc_samples m) (mc_lines m) = (c_calls c, Ok o) /\
    forall k i q, (0 <= k < mc_lines m)%Z -> (0 <= i < mc_samples m)%Z -> plotted (mc_samples m) (c_calls c) k i q ->
    exists v, d (element m (Z.of_nat j) k i) = Some (existT _ t v) /\
      (forall x, physical (fst q) (snd q) = Ok (Some x) -> is_finite x = true -> plane_range p (B2R x) ->
       exists y, stands_for t cards (Z.of_nat (List.length (mc_images m))) (Z.of_nat j + 1) v y /\ Rabs (y - B2R x) <= tolerance t p) /\
      (physical (fst q) (snd q) = Ok None -> blank_of t (p_blank params) = Some v).
Proof.
  intros X fuel status left_over removable m c w w' r j f p physical fine I.
  exact (computed_plane X fuel status left_over removable m c w w' r j f p physical fine (input_ready X m I)).
Qed.
Print Assumptions C101_computed.
(** The cosine 1/2 at 10^4 steps to the unit. *)
Example C101_computed_case : accurate (x_scale the_program) /\
  exists m c w' r, commands_of the_program (texts None [(the_map (T_mu seen_from far_away None), [])]) = Ok (Some [m]) /\ from_input the_program m /\
  command_of the_program 0 m = Some c /\ execute (fun _ => 0%Z) (fun _ _ => None) true c (World old_file 0) = (w', Ok r) /\
  peek the_cells (w_file w') =
    Some [None; Some 5000; Some 5000; Some 5000; Some 5000; Some 5000; Some 5000; Some 5000; Some 5000; None]%Z.
Proof. split; [exact the_scale_accurate|]. apply first_run_inv. vm_compute. reflexivity. Qed.

(** C102: the planes of planetocentric latitudes of simple cylindrical maps hold
    the latitudes of the middles of the lines. *)
Theorem C102_latitudes : forall X fuel status left_over removable m c w w' r j f b lo hi lo' hi' b',
  ieee X -> (forall n, status n = 0%Z) -> from_input X m -> fits_size m -> accurate (x_scale X) ->
  command_of X fuel m = Some c -> execute status left_over removable c w = (w', Ok r) ->
  mc_projection m = SimpleCylindrical b lo hi lo' hi' false -> IZR (mc_lines m) * 1e-9 <= Rabs (B2R hi - B2R lo) ->
  nth_error (mc_images m) j = Some f -> if_limits f = ex_empty -> if_source f = F_latitude b' false ->
  exists params t axes cards d rest,
    populate_map_parameters (map (parameters_of X) (mc_images m)) (mc_params m) = Ok params /\
    type_of_bitpix (p_bitpix params) = Some t /\
    w_file w' = new_file (Hdu t axes cards d :: rest) /\
    forall k i, (0 <= k < mc_lines m)%Z -> (0 <= i < mc_samples m)%Z ->
    exists v y, d (element m (Z.of_nat j) k i) = Some (existT _ t v) /\
      stands_for t cards (Z.of_nat (List.length (mc_images m))) (Z.of_nat j + 1) v y /\
      Rabs (y - middle_latitude (B2R lo) (B2R hi) k (mc_lines m)) <= tolerance t latitude_plane + 1e-12.
Proof.
  intros X fuel status left_over removable m c w w' r j f b lo hi lo' hi' b' E fine I.
  exact (latitudes X fuel status left_over removable m c w w' r j f b lo hi lo' hi' b' E fine (input_ready X m I)).
Qed.
Print Assumptions C102_latitudes.
(** -45 and 45 degrees at 100 steps to the degree. *)
Example C102_latitudes_case : ieee the_program /\ accurate (x_scale the_program) /\
  the_run (T_latitude (Some Centric)) =
    Some [None; Some (-4500); Some (-4500); Some (-4500); Some (-4500); Some 4500; Some 4500; Some 4500; Some 4500; None]%Z.
Proof. split; [exact the_program_ieee|]. split; [exact the_scale_accurate|]. vm_compute. reflexivity. Qed.

(** C103: the planes of longitudes of such maps hold, modulo 360 degrees, the
    longitudes of the middles of the samples, from 0 to 360. *)
Theorem C103_longitudes : forall X fuel status left_over removable m c w w' r j f b lo hi lo' hi',
  ieee X -> (forall n, status n = 0%Z) -> from_input X m -> fits_size m -> accurate (x_scale X) ->
  command_of X fuel m = Some c -> execute status left_over removable c w = (w', Ok r) ->
  mc_projection m = SimpleCylindrical b lo hi lo' hi' false ->
  (B2R lo' = B2R hi' \/ 1e-9 <= Rabs (B2R hi' - B2R lo')) -> (mc_samples m < 2 ^ 52)%Z ->
  nth_error (mc_images m) j = Some f -> if_limits f = ex_empty -> if_source f = F_longitude ->
  exists params t axes cards d rest,
    populate_map_parameters (map (parameters_of X) (mc_images m)) (mc_params m) = Ok params /\
    type_of_bitpix (p_bitpix params) = Some t /\
    w_file w' = new_file (Hdu t axes cards d :: rest) /\
    forall k i, (0 <= k < mc_lines m)%Z -> (0 <= i < mc_samples m)%Z ->
    exists v y z, d (element m (Z.of_nat j) k i) = Some (existT _ t v) /\
      stands_for t cards (Z.of_nat (List.length (mc_images m))) (Z.of_nat j + 1) v y /\
      - tolerance t longitude_plane <= y <= 360 + tolerance t longitude_plane /\
      Rabs (y - (middle_longitude (prograde b) (B2R lo') (B2R hi') i (mc_samples m) + 360 * IZR z)) <= tolerance t longitude_plane + 1e-11.
Proof.
  intros X fuel status left_over removable m c w w' r j f b lo hi lo' hi' E fine I.
  exact (longitudes X fuel status left_over removable m c w w' r j f b lo hi lo' hi' E fine (input_ready X m I)).
Qed.
Print Assumptions C103_longitudes.
(** 315, 225, 135 and 45 degrees, less 180, at 100 steps to the degree. *)
Example C103_longitudes_case : ieee the_program /\ accurate (x_scale the_program) /\
  the_run T_longitude =
    Some [None; Some 13500; Some 4500; Some (-4500); Some (-13500); Some 13500; Some 4500; Some (-4500); Some (-13500); None]%Z.
Proof. split; [exact the_program_ieee|]. split; [exact the_scale_accurate|]. vm_compute. reflexivity. Qed.

(** C104: from the text of the entries to the elements, for the whole body. *)
Theorem C104_whole_body : forall X fuel status left_over removable ts cmds n e,
  ieee X -> (forall n, status n = 0%Z) -> accurate (x_scale X) ->
  unmixed ts -> commands_of X (texts None ts) = Ok (Some cmds) ->
  nth_error (maps_of ts) n = Some e -> me_projection e = T_simple_c None ->
  exists m b, nth_error cmds n = Some m /\ body_spheroid (me_prograde e) (me_radii e) = Ok b /\
  forall c w w' r, fits_size m -> (mc_lines m < 2 ^ 37)%Z -> (mc_samples m < 2 ^ 52)%Z ->
  command_of X fuel m = Some c -> execute status left_over removable c w = (w', Ok r) ->
  forall j p, nth_error (me_plane e :: me_more_planes e) j = Some p -> pe_range p = no_range ->
  (pe_type p = T_latitude None \/ pe_type p = T_latitude (Some Centric) ->
   exists t axes cards d rest, w_file w' = new_file (Hdu t axes cards d :: rest) /\
   forall k i, (0 <= k < mc_lines m)%Z -> (0 <= i < mc_samples m)%Z ->
   exists v y, d (element m (Z.of_nat j) k i) = Some (existT _ t v) /\
     stands_for t cards (Z.of_nat (List.length (mc_images m))) (Z.of_nat j + 1) v y /\
     Rabs (y - (-90 + 180 * fraction k (mc_lines m))) <= tolerance t latitude_plane + 1e-12) /\
  (pe_type p = T_longitude ->
   exists t axes cards d rest, w_file w' = new_file (Hdu t axes cards d :: rest) /\
   forall k i, (0 <= k < mc_lines m)%Z -> (0 <= i < mc_samples m)%Z ->
   exists v y z, d (element m (Z.of_nat j) k i) = Some (existT _ t v) /\
     stands_for t cards (Z.of_nat (List.length (mc_images m))) (Z.of_nat j + 1) v y /\
     Rabs (y - ((if prograde b then 360 - 360 * fraction i (mc_samples m) else 360 * fraction i (mc_samples m)) + 360 * IZR z))
       <= tolerance t longitude_plane + 1e-11).
Proof. exact default_map. Qed.
Print Assumptions C104_whole_body.
Example C104_whole_body_case : exists m c w' r,
  commands_of the_program (texts None [(the_map T_longitude, [])]) = Ok (Some [m]) /\ from_input the_program m /\
  command_of the_program 0 m = Some c /\ execute (fun _ => 0%Z) (fun _ _ => None) true c (World old_file 0) = (w', Ok r) /\
  peek the_cells (w_file w') =
    Some [None; Some 13500; Some 4500; Some (-4500); Some (-13500); Some 13500; Some 4500; Some (-4500); Some (-13500); None]%Z.
Proof. apply first_run_inv. vm_compute. reflexivity. Qed.
