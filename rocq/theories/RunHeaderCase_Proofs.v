(** Maps whose headers are looked at, run from the texts of their entries. *)
From Coq Require Import List ZArith Bool String.
From Flocq Require Import Core BinarySingleNaN.
From Verif Require Import Base Flt Num Maths_Model Extrema_Model Proj_Model Entry_Model Photo_Model Input_Model Params_Model Fits_Model Command_Model
  Command_Spec Parse_Model Parse_Spec Run_Model Run_Spec Virtual_Model RunCase_Proofs RunPhotoCase_Proofs RunHeader_Spec.
Import ListNotations.
#[local] Existing Instance prec53.
#[local] Existing Instance emax53.
Open Scope string_scope.

(** As [photographed], but the files say something of themselves: "b.fits" has
    an ORIGIN, and all but it an AUTHOR. *)
Definition telling : outside :=
  let X := photographed in
  Outside (x_libm X) (x_scale X) (x_long X) (x_fmod X) (x_acos X) (x_circle X) (x_au X) (x_max_range X) (x_find X) (x_roots X)
    (x_graphic X) (x_centric X) (x_radius X) (x_eccentricity X) (x_mu X) (x_mu0 X) (x_cos_phase X) (x_file X)
    (fun s => if String.eqb s "b.fits"
       then Header (fun k => match k with k_origin => "Mauna Kea" | _ => EmptyString end) 16 (Some 99%Z) None
       else Header (fun k => match k with k_author => "Somebody" | k_object => "Moon" | _ => EmptyString end) 8 (Some 255%Z) None)
    (x_geometry X).
Definition named (s : string) (i : image_entry) : image_entry :=
  ImageEntry s (ie_nibbling i) (ie_inversion i) (ie_interpolate i) (ie_remove_sky i) (ie_centers i) (ie_axis i) (ie_flat_field i) (ie_geom_correct i)
    (ie_emi_ang_limit i) (ie_terminator i) (ie_sub_observ i) (ie_position_angle i) (ie_sub_solar i) (ie_range i) (ie_scale i).
(** A mosaic of two photos and a plane of latitudes; with an offset and a scale
    and a grid, if asked for. *)
Definition headed (scaled grid : bool) (more : list plane_entry) : map_entry :=
  let m := the_map (T_image (named "a.fits" (the_photo false)) [named "b.fits" (the_photo true)]) in
  MapEntry (me_file m) None None ["one"; "two"] ["of the grid"] "Earth" (me_radii m) (me_prograde m)
    (if scaled then Some (double_of_Z 3) else None) (if scaled then Some (double_of_Z 2) else None) None None
    (if grid then Some (true, Some (both_intervals (double_of_Z 90))) else None) (me_projection m) None
    (me_samples m) (me_lines m) (me_plane m) more.

(** The cards in words, without numbers in doubles. *)
Definition words (c : card) : string :=
  match c with
  | key_string n v => n ++ " " ++ v
  | key_int n _ | key_double n _ | key_datum n _ => n
  | card_comment s => "COMMENT " ++ s
  | card_projection s => "HISTORY " ++ s
  | card_grid s => "grid " ++ s
  | card_plane _ => "plane"
  | card_bscale _ => "scale"
  | card_bzero _ => "offset"
  end.
Definition heads (f : file) : option (list (mapty * list string)) :=
  match f with new_file l => Some (map (fun h => (h_type h, map words (h_cards h))) l) | _ => None end.
Definition header_run (X : outside) (e : map_entry) : option (list (mapty * list string)) :=
  match commands_of X (texts None [(e, [])]) with
  | Ok (Some [m]) =>
      match command_of X 100 m with
      | Some c =>
          match execute (fun _ => 0%Z) (fun _ _ => None) true c (World old_file 0) with
          | (w, Ok _) => heads (w_file w)
          | _ => None
          end
      | None => None
      end
  | _ => None
  end.
Lemma header_run_inv X e l : header_run X e = Some l ->
  exists m c w' r, commands_of X (texts None [(e, [])]) = Ok (Some [m]) /\ command_of X 100 m = Some c /\
    execute (fun _ => 0%Z) (fun _ _ => None) true c (World old_file 0) = (w', Ok r) /\ heads (w_file w') = Some l.
Proof.
  unfold header_run. intros H. destruct (commands_of _ _) as [o| |] eqn:Hc; try discriminate.
  destruct o as [l'|]; [|discriminate]. destruct l' as [|m l']; [discriminate|]. destruct l'; [|discriminate].
  destruct (command_of _ _ _) as [c|] eqn:Hm; [|discriminate]. destruct (execute _ _ _ _ _) as [w' o] eqn:He. destruct o as [r| |]; try discriminate.
  exists m, c, w', r. auto.
Qed.
(** The values of the mosaic are those of its last photo: BITPIX, BLANK, ORIGIN,
    and no AUTHOR.  BUNIT is that of the latitudes. *)
Lemma headed_run : header_run telling (headed false true [PlaneEntry None no_range (T_latitude None)]) = Some
  [(I16, ["BLANK"; "ORIGIN Mauna Kea"; "OBJECT Earth"; "COMMENT one"; "COMMENT two"; "HISTORY Simple Cylindrical"; "BUNIT deg";
          "plane"; "scale"; "offset"; "DATAMIN"; "DATAMAX"]);
   (U8, ["COMMENT of the grid"; "grid Simple Cylindrical"; "DATAMIN"; "DATAMAX"; "BLANK"])].
Proof. vm_compute. reflexivity. Qed.
Lemma scaled_run : header_run telling (headed true false []) = Some
  [(I16, ["BLANK"; "ORIGIN Mauna Kea"; "OBJECT Earth"; "COMMENT one"; "COMMENT two"; "HISTORY Simple Cylindrical"; "DATAMIN"; "DATAMAX"])].
Proof. vm_compute. reflexivity. Qed.
