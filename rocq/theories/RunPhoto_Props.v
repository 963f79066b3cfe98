(** C105 to C107: photos in maps. *)
From Coq Require Import List ZArith Bool Reals String.
From Flocq Require Import Core BinarySingleNaN.
From Verif Require Import Base Flt Num Maths_Model Extrema_Model Extrema_Spec MakeMap_Model MakeMap_Spec Proj_Model Proj_Spec Photo_Model Photo_Spec
  Params_Model Fits_Model Command_Model Command_Spec Entry_Model Input_Model Input_Spec PhotoRead_Spec PhotoRead_Proofs Parse_Model Parse_Spec Run_Model Run_Spec
  Run_Proofs RunPlane_Proofs RunCase_Proofs RunPhoto_Spec RunPhoto_Proofs RunPhotoCase_Proofs.
Import ListNotations.

(** C105: the factory of a plane with one image reads the file named, with the
    flat field, turns, lens correction, interpolation, sky removal and nibbles
    asked for; each member of its viewing geometry is what the entry says
    ([follows], [seen]). *)
Theorem C105_photo_of_entry : forall X ts cmds n e j p i, unmixed ts -> commands_of X (texts None ts) = Ok (Some cmds) ->
  nth_error (maps_of ts) n = Some e -> nth_error (me_plane e :: me_more_planes e) j = Some p -> pe_type p = T_image i [] ->
  exists m b f ph, nth_error cmds n = Some m /\ body_spheroid (me_prograde e) (me_radii e) = Ok b /\
    nth_error (mc_images m) j = Some f /\ if_source f = F_photo ph /\
    range_of (None, None) (pe_range p) = Some (e_min (if_limits f), e_max (if_limits f)) /\
    follows X b i (if_limits f) (photo_of X ph (if_limits f)).
Proof. exact photo_plane_entry. Qed.
Print Assumptions C105_photo_of_entry.
Example C105_photo_of_entry_case :
  let entries := [(the_map (T_image (the_photo true) []), [])] in
  unmixed entries /\
  exists cmds m f ph, commands_of photographed (texts None entries) = Ok (Some cmds) /\ nth_error cmds 0 = Some m /\
    nth_error (mc_images m) 0 = Some f /\ if_source f = F_photo ph /\
    ps_invert_h (photo_of photographed ph (if_limits f)) = true /\ ps_invert_v (photo_of photographed ph (if_limits f)) = false /\
    seen photographed (the_photo true) (double_of_Z 0, double_of_Z 0) (double_of_Z 0, double_of_Z 0) (double_of_Z 0) None View_Model.sample_center_ = double_of_Z 2.
Proof. exact the_photo_entry. Qed.

(** C106: each element of a plane of one photo is what the photo has at a plotted
    point, within the limits; an element is blank if the photo has nothing within
    the limits at any plotted point.  The limits are those of the entry or else
    DATAMIN and DATAMAX of the file. *)
Theorem C106_photo_elements : forall X fuel status left_over removable m c w w' r j f ph,
  (forall n, status n = 0%Z) -> from_input X m -> fits_size m ->
  command_of X fuel m = Some c -> execute status left_over removable c w = (w', Ok r) ->
  nth_error (mc_images m) j = Some f -> if_source f = F_photo ph ->
  let src := photo_of X ph (if_limits f) in
  sound src ->
  exists params t axes cards d rest o,
    populate_map_parameters (map (parameters_of X) (mc_images m)) (mc_params m) = Ok params /\
    type_of_bitpix (p_bitpix params) = Some t /\
    w_file w' = new_file (Hdu t axes cards d :: rest) /\
    calls_of X (mc_projection m) (mc_samples m) (mc_lines m) = (c_calls c, Ok o) /\
    forall lo hi, plane_limits t (Extrema (T := ct F64) (first_given (e_min (if_limits f)) (ff_datamin (ps_file src)))
                                     (first_given (e_max (if_limits f)) (ff_datamax (ps_file src)))) lo hi ->
    exists blank, blank_of t (p_blank params) = Some blank /\
    forall k i, (0 <= k < mc_lines m)%Z -> (0 <= i < mc_samples m)%Z ->
    exists v, d (element m (Z.of_nat j) k i) = Some (existT _ t v) /\
      ((exists q x, plotted (mc_samples m) (c_calls c) k i q /\ pictures src q x /\ within lo hi x /\ MakeMap_Spec.holds t v x) \/
       (v = blank /\ forall q x, plotted (mc_samples m) (c_calls c) k i q -> pictures src q x -> ~ within lo hi x)).
Proof.
  intros X fuel status left_over removable m c w w' r j f ph fine I.
  exact (photo_plane X fuel status left_over removable m c w w' r j f ph fine (input_ready X m I)).
Qed.
Print Assumptions C106_photo_elements.
(** Two lines of a photo of 4 by 3; 33 is above DATAMAX = 32 and (2, 3) is NaN.
    The second is interpolated. *)
Example C106_photo_elements_case :
  (forall b i limits src, In i [the_photo false; the_photo true; the_smooth_photo] -> follows photographed b i limits src -> sound src) /\
  (exists m c w' r, commands_of photographed (texts None [(the_map (T_image (the_photo false) []), [])]) = Ok (Some [m]) /\ from_input photographed m /\
  command_of photographed 0 m = Some c /\ execute (fun _ => 0%Z) (fun _ _ => None) true c (World old_file 0) = (w', Ok r) /\
  peek the_cells (w_file w') = Some [None; Some 31; Some 21; Some 21; Some 11; Some 0; Some 0; Some 0; Some 13; None]%Z) /\
  exists m c w' r, commands_of photographed (texts None [(the_map (T_image the_smooth_photo []), [])]) = Ok (Some [m]) /\ from_input photographed m /\
  command_of photographed 0 m = Some c /\ execute (fun _ => 0%Z) (fun _ _ => None) true c (World old_file 0) = (w', Ok r) /\
  peek the_cells (w_file w') = Some [None; Some 0; Some 30; Some 26; Some 17; Some 0; Some 0; Some 0; Some 0; None]%Z.
Proof. split; [exact the_photos_sound|]. split; apply first_run_inv; vm_compute; reflexivity. Qed.

(** C106, what a photo without interpolation and sky removal has at a point: the
    value of the file, turned and less the flat field, at the pixel where the
    point is seen inside the nibbles. *)
Theorem C106_plain : forall src ready n s l q w, proper (A := ar_double) src ready n false s l -> ps_interpolate src = false ->
  (pictures src q w <-> plainly src ready n s l q w).
Proof. exact plain_pictures. Qed.
Print Assumptions C106_plain.
Example C106_plain_case : forall b limits src, follows photographed b (the_photo false) limits src ->
  pictures src (double_of_Z 0, double_of_Z 1) (double_of_Z 12).
Proof. exact the_photo_pictures. Qed.

(** C107: several images of a plane are a mosaic of photos that follow their
    entries, averaged as asked for (weighted by default). *)
Theorem C107_mosaic_of_entries : forall X ts cmds n e j p i i' more, unmixed ts -> commands_of X (texts None ts) = Ok (Some cmds) ->
  nth_error (maps_of ts) n = Some e -> nth_error (me_plane e :: me_more_planes e) j = Some p -> pe_type p = T_image i (i' :: more) ->
  exists m b f l, nth_error cmds n = Some m /\ body_spheroid (me_prograde e) (me_radii e) = Ok b /\
    nth_error (mc_images m) j = Some f /\ if_source f = F_mosaic l (average_of (me_projection e)) /\
    range_of (None, None) (pe_range p) = Some (e_min (if_limits f), e_max (if_limits f)) /\
    Forall2 (fun i => follows X b i ex_empty) (i :: i' :: more) (map (fun ph => photo_of X ph ex_empty) l).
Proof. exact mosaic_plane_entry. Qed.
Print Assumptions C107_mosaic_of_entries.
Example C107_mosaic_of_entries_case :
  let entries := [(mosaic_map AVG_UNWEIGHTED, [])] in
  unmixed entries /\
  exists cmds m f l, commands_of photographed (texts None entries) = Ok (Some cmds) /\ nth_error cmds 0 = Some m /\
    nth_error (mc_images m) 0 = Some f /\ if_source f = F_mosaic l AVG_UNWEIGHTED /\
    map (fun ph => ps_invert_h (photo_of photographed ph ex_empty)) l = [false; true].
Proof. exact the_mosaic_entry. Qed.

(** C107: each element of a mosaic plane is the composition of what the photos
    have at a plotted point, within the limits of the entry; an element is blank
    if the composition has nothing within the limits at any plotted point. *)
Theorem C107_mosaic_elements : forall X fuel status left_over removable m c w w' r j f l a,
  (forall n, status n = 0%Z) -> from_input X m -> fits_size m ->
  command_of X fuel m = Some c -> execute status left_over removable c w = (w', Ok r) ->
  nth_error (mc_images m) j = Some f -> if_source f = F_mosaic l a -> l <> [] ->
  let srcs := map (fun ph => photo_of X ph ex_empty) l in
  Forall sound srcs ->
  exists params t axes cards d rest o,
    populate_map_parameters (map (parameters_of X) (mc_images m)) (mc_params m) = Ok params /\
    type_of_bitpix (p_bitpix params) = Some t /\
    w_file w' = new_file (Hdu t axes cards d :: rest) /\
    calls_of X (mc_projection m) (mc_samples m) (mc_lines m) = (c_calls c, Ok o) /\
    forall lo hi, plane_limits t (if_limits f) lo hi ->
    exists blank, blank_of t (p_blank params) = Some blank /\
    forall k i, (0 <= k < mc_lines m)%Z -> (0 <= i < mc_samples m)%Z ->
    exists v, d (element m (Z.of_nat j) k i) = Some (existT _ t v) /\
      ((exists q x, plotted (mc_samples m) (c_calls c) k i q /\ composes X a srcs q x /\ within lo hi x /\ MakeMap_Spec.holds t v x) \/
       (v = blank /\ forall q x, plotted (mc_samples m) (c_calls c) k i q -> composes X a srcs q x -> ~ within lo hi x)).
Proof.
  intros X fuel status left_over removable m c w w' r j f l a fine I.
  exact (mosaic_plane X fuel status left_over removable m c w w' r j f l a fine (input_ready X m I)).
Qed.
Print Assumptions C107_mosaic_elements.
(** The photo of C106 and the same turned; at the edges both have weight 0 and the
    last one is taken. *)
Example C107_mosaic_elements_case :
  Forall (fun al : average * list (option Z) =>
    exists m c w' r, commands_of photographed (texts None [(mosaic_map (fst al), [])]) = Ok (Some [m]) /\ from_input photographed m /\
    command_of photographed 0 m = Some c /\ execute (fun _ => 0%Z) (fun _ _ => None) true c (World old_file 0) = (w', Ok r) /\
    peek the_cells (w_file w') = Some (snd al))
  [(AVG_NONE, [None; Some 31; Some 21; Some 21; Some 11; Some 33; Some 0; Some 0; Some 13; None]%Z);
   (AVG_UNWEIGHTED, [None; Some 26; Some 26; Some 26; Some 26; Some 0; Some 0; Some 0; Some 28; None]%Z);
   (AVG_WEIGHTED, [None; Some 21; Some 31; Some 31; Some 41; Some 0; Some 0; Some 0; Some 43; None]%Z)].
Proof. repeat (constructor; [apply first_run_inv; vm_compute; reflexivity|]). constructor. Qed.

(** C107, photos that leave nothing behind: the composition is the only datum, or
    the average of all data (in [long double]); of none there is none. *)
Theorem C107_clean : forall (W : wide ar_double) (rs : list (found ar_double)), Forall (fun r => forall d, r <> left_behind d) rs ->
  (data_of rs = [] -> average_of_found W rs = None /\ weighted_of_found W rs = None) /\
  (forall v w, data_of rs = [(v, w)] -> average_of_found W rs = Some v /\ weighted_of_found W rs = Some v) /\
  ((1 < List.length (data_of rs))%nat ->
   average_of_found W rs =
     Some (w_narrow W (a_div (w_arith W) (long_sum W (map fst (data_of rs))) (a_of_Z (w_arith W) (Z.of_nat (List.length (data_of rs))))))) /\
  ((1 < List.length (data_of rs))%nat ->
   let weights := long_sum W (map (fun d => a_of_Z ar_double (snd d)) (data_of rs)) in
   a_lt (w_arith W) (a_of_Z (w_arith W) 0) weights = true ->
   weighted_of_found W rs =
     Some (w_narrow W (a_div (w_arith W) (long_sum W (map (fun d => a_mul ar_double (a_of_Z ar_double (snd d)) (fst d)) (data_of rs))) weights))).
Proof. exact (clean_averages (A := ar_double)). Qed.
Print Assumptions C107_clean.
Example C107_clean_case :
  let rs := [nothing; datum (double_of_Z 3 : ar_double) 1; datum (double_of_Z 5 : ar_double) 3] in
  match average_of_found (as_wide ar_double) rs, weighted_of_found (as_wide ar_double) rs with
  | Some x, Some y => flt x (double_of_Z 5) && flt (double_of_Z 3) x && flt x y
  | _, _ => false
  end = true.
Proof. vm_compute. reflexivity. Qed.

(** C107, "an averaged mosaic shows a point that one photo shows" is refuted: the
    first photo has 33 at element 5 and the second a pixel that is NaN. *)
Theorem C107_single_refuted :
  ~ (forall X e e' cells c l l', me_projection e = T_simple_c (Some (Some AVG_NONE, None, None, None)) ->
     e' = with_average AVG_UNWEIGHTED e -> first_run X e cells = Some l -> first_run X e' cells = Some l' ->
     nth_error l c <> Some (Some 0%Z) -> nth_error l' c <> Some (Some 0%Z)).
Proof. exact single_refuted. Qed.
Print Assumptions C107_single_refuted.
