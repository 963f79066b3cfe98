(** C108 and C109: the headers of map files. *)
From Coq Require Import List ZArith Bool String.
From Flocq Require Import BinarySingleNaN.
From Verif Require Import Base Flt Num Maths_Model Extrema_Model MakeMap_Model Params_Model Fits_Model Command_Model Command_Spec Entry_Model
  Parse_Model Parse_Spec Run_Model Run_Spec RunCase_Proofs RunPhotoCase_Proofs RunHeader_Spec RunHeader_Proofs RunHeaderCase_Proofs.
Import ListNotations.

(** C108: the file of a map that was made holds an array of SAMPLES by LINES by
    planes, of the type of DATA_TYPE or else of the first plane of photos, with
    exactly the cards of [header_says]; and, if a grid was asked for, a second
    array of bytes with the cards of the grid. *)
Theorem C108_headers : forall X fuel status left_over removable u ts cmds n e,
  unmixed ts -> commands_of X (texts u ts) = Ok (Some cmds) -> nth_error (maps_of ts) n = Some e ->
  exists m, nth_error cmds n = Some m /\
  positive_size (me_samples e) = Parsed (mc_samples m) /\ positive_size (me_lines e) = Parsed (mc_lines m) /\
  forall c w w' r, command_of X fuel m = Some c -> execute status left_over removable c w = (w', Ok r) ->
  exists b t cards d,
    bitpix_is X e b /\ type_of_bitpix b = Some t /\ header_says X e t cards /\
    let map_array := Hdu t (image_axes (mc_samples m) (mc_lines m) (plane_count e)) cards d in
    ((forall i, me_grid e <> Some (true, i)) /\ w_file w' = new_file [map_array] \/
     exists i dg, me_grid e = Some (true, i) /\
       w_file w' = new_file [map_array; Hdu U8 (image_axes (mc_samples m) (mc_lines m) 1) (grid_header e) dg]).
Proof. exact entry_header. Qed.
Print Assumptions C108_headers.
(** A mosaic of a.fits and b.fits with latitudes and a grid; no AUTHOR, ORIGIN or
    DATA_TYPE in the entry. *)
Example C108_headers_case :
  let e := headed false true [PlaneEntry None no_range (T_latitude None)] in
  unmixed [(e, [])] /\ bitpix_is telling e 16 /\ blank_is telling e (Some 99%Z) /\
  exists m c w' r, commands_of telling (texts None [(e, [])]) = Ok (Some [m]) /\ command_of telling 100 m = Some c /\
    execute (fun _ => 0%Z) (fun _ _ => None) true c (World old_file 0) = (w', Ok r) /\
    heads (w_file w') = Some
      [(I16, ["BLANK"; "ORIGIN Mauna Kea"; "OBJECT Earth"; "COMMENT one"; "COMMENT two"; "HISTORY Simple Cylindrical"; "BUNIT deg";
              "plane"; "scale"; "offset"; "DATAMIN"; "DATAMAX"]);
       (U8, ["COMMENT of the grid"; "grid Simple Cylindrical"; "DATAMIN"; "DATAMAX"; "BLANK"])]%string.
Proof.
  cbv zeta. split. { split; [reflexivity|]. split; [reflexivity|exact I]. }
  split; [reflexivity|]. split; [reflexivity|]. exact (header_run_inv _ _ _ headed_run).
Qed.

(** C109, refuted: DATA_SCALE and DATA_OFFSET are to be placed in the header as
    BSCALE and BZERO; no map of photos has these cards, whatever the entry says. *)
Theorem C109_refuted : forall X fuel status left_over removable u ts cmds n e m c w w' r h rest x,
  unmixed ts -> commands_of X (texts u ts) = Ok (Some cmds) -> nth_error (maps_of ts) n = Some e -> nth_error cmds n = Some m ->
  command_of X fuel m = Some c -> execute status left_over removable c w = (w', Ok r) -> w_file w' = new_file (h :: rest) ->
  Forall (fun p => exists i more, pe_type p = T_image i more) (planes_of e) ->
  ~ In (key_double "BSCALE" x) (h_cards h) /\ ~ In (key_double "BZERO" x) (h_cards h).
Proof. exact photos_no_scale. Qed.
Print Assumptions C109_refuted.
Example C109_refuted_case :
  let e := headed true false [] in
  me_scale e = Some (double_of_Z 2) /\ me_offset e = Some (double_of_Z 3) /\
  Forall (fun p => exists i more, pe_type p = T_image i more) (planes_of e) /\
  exists m c w' r, commands_of telling (texts None [(e, [])]) = Ok (Some [m]) /\ command_of telling 100 m = Some c /\
    execute (fun _ => 0%Z) (fun _ _ => None) true c (World old_file 0) = (w', Ok r) /\
    heads (w_file w') = Some
      [(I16, ["BLANK"; "ORIGIN Mauna Kea"; "OBJECT Earth"; "COMMENT one"; "COMMENT two"; "HISTORY Simple Cylindrical"; "DATAMIN"; "DATAMAX"])]%string.
Proof.
  cbv zeta. split; [reflexivity|]. split; [reflexivity|]. split. { constructor; [eexists; eexists; reflexivity|constructor]. }
  exact (header_run_inv _ _ _ scaled_run).
Qed.
