(** A map of a photo, run from the text of its entry. *)
From Coq Require Import List ZArith Reals Bool String.
From Flocq Require Import Core BinarySingleNaN.
From Verif Require Import Base Flt Num Maths_Model Maths_Proofs Extrema_Model Proj_Model Entry_Model Photo_Model Photo_Spec Input_Model Input_Spec
  Params_Model Fits_Model Command_Model PhotoRead_Spec Parse_Model Parse_Spec Run_Model Run_Spec Virtual_Model RunCase_Proofs RunPhoto_Spec.
Import ListNotations.
#[local] Existing Instance prec53.
#[local] Existing Instance emax53.
Open Scope string_scope.

(** 4 samples by 3 lines; the value at sample s of line l is 10 s + l, but for a
    NaN at sample 2 of line 3. *)
Definition the_image : fits_image ar_double :=
  FitsImage (A := ar_double) [4; 3]%Z (fun c => match c with
    | [2; 3]%Z => None
    | [s; l] => Some (double_of_Z (10 * s + l) : ar_double)
    | _ => None end) 0 0 (fun _ => None).
(** A view in which the sample is half the longitude and the line the latitude
    above the south pole, in radians. *)
Definition the_view : Photo_Model.geometry ar_double place :=
  Photo_Model.Geometry (A := ar_double)
    (fun q => (true, Bmult mode_NE (snd q) (dlit 1 (-1)) : ar_double, Bplus mode_NE (fst q) d_pi2 : ar_double)) (fun _ _ => []).
Definition photographed : outside :=
  Outside the_libm the_scale (as_wide ar_double) remainder (fun x => x) d_circle (double_of_Z 149597870) (double_of_Z (10 ^ 9))
    (fun _ _ _ _ => Throw runtime_error) (fun _ _ _ => None) (fun _ x => x) (fun _ x => x) (fun _ x => x) (fun _ => double_of_Z 0)
    (fun _ _ _ _ _ _ => dlit 1 (-1)) (fun _ _ _ _ _ => double_of_Z 0) (fun _ _ _ _ _ _ _ _ => double_of_Z 0)
    (fun _ => FitsFile (A := ar_double) 0 the_image key_absent (key_value (double_of_Z 32))) (fun _ => Header (fun _ => EmptyString) 8 None None)
    (fun _ _ _ => RawGeometry (A := ar_double) (fun _ _ _ => Ok the_view) (fun _ _ _ => Ok tt)).

(** The map of RunCase_Proofs from one photo: nibbles 0, turned left to right if
    [h]. *)
Definition the_photo (h : bool) : image_entry :=
  ImageEntry "photo.fits" [] (if h then Some horizontal else None) None None (sample_line (double_of_Z 2) (double_of_Z 1)) None None None None None
    seen_from (AngleEntry (double_of_Z 0) CW) seen_from far_away (km_per_pixel (double_of_Z 5)).
Definition photo_run (h : bool) : option (list (option Z)) := first_run photographed (the_map (T_image (the_photo h) [])) the_cells.
Lemma a_flat limits ph : flat_source (A := ar_double) (photo_of photographed ph limits).
Proof.
  split; [split; [cbn; auto | intros ? ? [= <- <-]; reflexivity] |].
  unfold photo_of. cbn [ps_flat_field]. destruct (Parse_Model.ph_flat_field ph) as [|a r]; [discriminate|]. intros d [= <-].
  split; [cbn; auto | intros ? ? [= <- <-]; reflexivity].
Qed.

(** The same interpolated; and two photos, one turned, as a mosaic. *)
Definition the_smooth_photo : image_entry :=
  let i := the_photo false in
  ImageEntry (ie_file i) (ie_nibbling i) (ie_inversion i) (Some true) (ie_remove_sky i) (ie_centers i) (ie_axis i) (ie_flat_field i) (ie_geom_correct i)
    (ie_emi_ang_limit i) (ie_terminator i) (ie_sub_observ i) (ie_position_angle i) (ie_sub_solar i) (ie_range i) (ie_scale i).
Definition with_average (a : average) (m : map_entry) : map_entry :=
  MapEntry (me_file m) (me_author m) (me_origin m) (me_comments m) (me_xcomments m) (me_body m) (me_radii m) (me_prograde m)
    (me_offset m) (me_scale m) (me_type m) (me_blank m) (me_grid m) (T_simple_c (Some (Some a, None, None, None))) (me_planes m)
    (me_samples m) (me_lines m) (me_plane m) (me_more_planes m).
Definition mosaic_map (a : average) : map_entry := with_average a (the_map (T_image (the_photo false) [the_photo true])).
Lemma the_photos_sound b i limits src : In i [the_photo false; the_photo true; the_smooth_photo] -> follows photographed b i limits src -> sound src.
Proof.
  intros I (o & s & pa & c & nb & g & _ & _ & _ & _ & Nb & _ & ->).
  assert (N : nb = Parse_Model.Nibbles 0 0 0 0) by (destruct I as [<-|[<-|[<-|[]]]]; injection Nb as <-; reflexivity).
  assert (K : ie_remove_sky i = None) by (destruct I as [<-|[<-|[<-|[]]]]; reflexivity).
  assert (Fl : forall s, flat_image (A := ar_double) (ff_image (x_file photographed s)))
    by (intros s'; split; [cbn; auto | intros ? ? [= <- <-]; reflexivity]).
  rewrite N, K. split.
  - split; [apply Fl|]. cbn [ps_flat_field]. destruct (or_else (ie_flat_field i) EmptyString); [discriminate|]. intros d [= <-]. exact (Fl EmptyString).
  - exists the_view, (Photo_Model.Nibbles 0 0 0 0), false, 4%Z, 3%Z. constructor; try reflexivity; try discriminate.
    + eexists. split; reflexivity.
    + repeat split; cbn; discriminate || reflexivity.
Qed.

Definition first_photo (X : outside) (e : map_entry) : option (bool * bool) :=
  match commands_of X (texts None [(e, [])]) with
  | Ok (Some (m :: _)) =>
      match mc_images m with
      | f :: _ => match if_source f with
                  | F_photo ph => Some (ps_invert_h (photo_of X ph (if_limits f)), ps_invert_v (photo_of X ph (if_limits f)))
                  | _ => None end
      | [] => None
      end
  | _ => None
  end.
Lemma first_photo_inv X e a b : first_photo X e = Some (a, b) ->
  exists cmds m f ph, commands_of X (texts None [(e, [])]) = Ok (Some cmds) /\ nth_error cmds 0 = Some m /\
    nth_error (mc_images m) 0 = Some f /\ if_source f = F_photo ph /\
    ps_invert_h (photo_of X ph (if_limits f)) = a /\ ps_invert_v (photo_of X ph (if_limits f)) = b.
Proof.
  unfold first_photo. intros H. destruct (commands_of _ _) as [o| |] eqn:Hc; try discriminate.
  destruct o as [l'|]; [|discriminate]. destruct l' as [|m l']; [discriminate|].
  destruct (mc_images m) as [|f l] eqn:Hm; [discriminate|]. destruct (if_source f) as [ph| | | | | |] eqn:Hf; try discriminate.
  injection H as <- <-. exists (m :: l'), m, f, ph. rewrite Hm. repeat (split; [reflexivity || assumption|]). reflexivity.
Qed.
Lemma the_photo_entry :
  let entries := [(the_map (T_image (the_photo true) []), [])] in
  unmixed entries /\
  exists cmds m f ph, commands_of photographed (texts None entries) = Ok (Some cmds) /\ nth_error cmds 0 = Some m /\
    nth_error (mc_images m) 0 = Some f /\ if_source f = F_photo ph /\
    ps_invert_h (photo_of photographed ph (if_limits f)) = true /\ ps_invert_v (photo_of photographed ph (if_limits f)) = false /\
    seen photographed (the_photo true) (double_of_Z 0, double_of_Z 0) (double_of_Z 0, double_of_Z 0) (double_of_Z 0) None View_Model.sample_center_ = double_of_Z 2.
Proof.
  cbv zeta. split. { split; [reflexivity|exact I]. }
  assert (E : first_photo photographed (the_map (T_image (the_photo true) [])) = Some (true, false)) by (vm_cast_no_check (eq_refl (Some (true, false)))).
  destruct (first_photo_inv _ _ _ _ E) as (cmds & m & f & ph & H1 & H2 & H3 & H4 & H5 & H6). exists cmds, m, f, ph.
  split; [exact H1|]. split; [exact H2|]. split; [exact H3|]. split; [exact H4|]. split; [exact H5|]. split; [exact H6|].
  unfold seen, the_photo. cbn [ie_centers].
  assert (T : two_numbers (double_of_Z 2) (double_of_Z 1) = true) by (vm_compute; reflexivity). rewrite T. reflexivity.
Qed.

Lemma the_photo_pictures b limits src : follows photographed b (the_photo false) limits src ->
  pictures src (double_of_Z 0, double_of_Z 1) (double_of_Z 12).
Proof.
  intros F. assert (So := the_photos_sound b (the_photo false) limits src (or_introl eq_refl) F).
  destruct F as (o & s & pa & c & nb & g & _ & _ & _ & _ & Nb & _ & E). injection Nb as <-.
  exists 0%Z, the_view, (Photo_Model.Nibbles 0 0 0 0), false, 4%Z, 3%Z. split.
  - rewrite E. constructor; try reflexivity; try discriminate.
    + eexists. split; reflexivity.
    + repeat split; cbn; discriminate || reflexivity.
  - rewrite E. unfold finds. cbn [g_pix the_view].
    replace (_ || _ || _) with false by (symmetry; vm_compute; reflexivity).
    exists 0%Z, 1%Z. split; [vm_compute; reflexivity|]. split; [vm_compute; reflexivity|]. right.
    split; [repeat split; cbn; discriminate || reflexivity|]. reflexivity.
Qed.

Definition first_mosaic (X : outside) (e : map_entry) : option (average * list bool) :=
  match commands_of X (texts None [(e, [])]) with
  | Ok (Some (m :: _)) =>
      match mc_images m with
      | f :: _ => match if_source f with
                  | F_mosaic l a => Some (a, map (fun ph => ps_invert_h (photo_of X ph ex_empty)) l)
                  | _ => None end
      | [] => None
      end
  | _ => None
  end.
Lemma first_mosaic_inv X e a b : first_mosaic X e = Some (a, b) ->
  exists cmds m f l, commands_of X (texts None [(e, [])]) = Ok (Some cmds) /\ nth_error cmds 0 = Some m /\
    nth_error (mc_images m) 0 = Some f /\ if_source f = F_mosaic l a /\ map (fun ph => ps_invert_h (photo_of X ph ex_empty)) l = b.
Proof.
  unfold first_mosaic. intros H. destruct (commands_of _ _) as [o| |] eqn:Hc; try discriminate.
  destruct o as [l'|]; [|discriminate]. destruct l' as [|m l']; [discriminate|].
  destruct (mc_images m) as [|f l] eqn:Hm; [discriminate|]. destruct (if_source f) as [|ls a'| | | | |] eqn:Hf; try discriminate.
  injection H as <- <-. exists (m :: l'), m, f, ls. rewrite Hm. repeat (split; [reflexivity || assumption|]). reflexivity.
Qed.
Lemma the_mosaic_entry :
  let entries := [(mosaic_map AVG_UNWEIGHTED, [])] in
  unmixed entries /\
  exists cmds m f l, commands_of photographed (texts None entries) = Ok (Some cmds) /\ nth_error cmds 0 = Some m /\
    nth_error (mc_images m) 0 = Some f /\ if_source f = F_mosaic l AVG_UNWEIGHTED /\
    map (fun ph => ps_invert_h (photo_of photographed ph ex_empty)) l = [false; true].
Proof.
  cbv zeta. split. { split; [reflexivity|exact I]. }
  apply first_mosaic_inv. vm_cast_no_check (eq_refl (Some (AVG_UNWEIGHTED, [false; true]))).
Qed.

Lemma single_refuted :
  ~ (forall X e e' cells c l l', me_projection e = T_simple_c (Some (Some AVG_NONE, None, None, None)) ->
     e' = with_average AVG_UNWEIGHTED e -> first_run X e cells = Some l -> first_run X e' cells = Some l' ->
     nth_error l c <> Some (Some 0%Z) -> nth_error l' c <> Some (Some 0%Z)).
Proof.
  intros H.
  apply (H photographed (mosaic_map AVG_NONE) (mosaic_map AVG_UNWEIGHTED) the_cells 5%nat
    [None; Some 31; Some 21; Some 21; Some 11; Some 33; Some 0; Some 0; Some 13; None]%Z
    [None; Some 26; Some 26; Some 26; Some 26; Some 0; Some 0; Some 0; Some 28; None]%Z).
  - reflexivity.
  - reflexivity.
  - vm_compute. reflexivity.
  - vm_compute. reflexivity.
  - discriminate.
  - reflexivity.
Qed.
