(** Specification of what input files say: how the entries of a file are written
    with their keywords, one keyword per value. *)
From Coq Require Import List ZArith Bool Ascii String.
From Flocq Require Import BinarySingleNaN.
From Verif Require Import Base Flt Num Spheroid_Model Entry_Model Expr_Model Expr_Spec Parse_Model Text_Model.
Import ListNotations.
Open Scope Z_scope.

(** The text of a number, by its parts. *)
Definition digit_char (d : Z) : ascii := nth (Z.to_nat d) (chars "0123456789") "0"%char.
Definition digits (l : list Z) (s : text) : Prop := Forall (fun d => 0 <= d <= 9) l /\ s = map digit_char l.
Definition sign (b : option bool) : text :=
  match b with None => [] | Some true => ["-"%char] | Some false => ["+"%char] end.
Definition number_text (n : number) (s : text) : Prop :=
  exists d f e, s = (sign (n_sign n) ++ d ++ f ++ e)%list /\ digits (n_digits n) d /\
    match n_fraction n with None => f = [] | Some l => exists r, f = "."%char :: r /\ digits l r end /\
    match n_exponent n with
    | None => e = []
    | Some (b, l) => exists c r, e = c :: sign b ++ r /\ (c = "E" \/ c = "e")%char /\ digits l r /\ (1 <= List.length l <= 3)%nat
    end.

(** ** Sets of writings *)

Definition doc : Type := list tok -> Prop.
Definition nothing : doc := fun ts => ts = [].
Definition impossible : doc := fun _ => False.
Definition word (k : string) : doc := fun ts => ts = [KEY k].
Definition line (s : string) : doc := fun ts => ts = [STRING s].
Definition whole (n : number) : doc := fun ts => exists s, ts = [EX (TNum s)] /\ number_text n s.
Definition followed_by (a b : doc) : doc := fun ts => exists u v, ts = u ++ v /\ a u /\ b v.
Definition or_else (a b : doc) : doc := fun ts => a ts \/ b ts.
Infix ";+" := followed_by (at level 61, right associativity).
Infix "//" := or_else (at level 63, right associativity).
Definition under (k : string) (d : doc) : doc := word k ;+ word ":" ;+ d.
Definition given {A : Type} (o : option A) (f : A -> doc) : doc := match o with None => nothing | Some a => f a end.
Fixpoint each {A : Type} (f : A -> doc) (l : list A) : doc := match l with [] => nothing | a :: l => f a ;+ each f l end.

(** ** Entries *)

Section Writing.
Context (strtod : text -> option double) (call : string -> double -> double) (pow : double -> double -> double).

(** An expression with the value [v]. *)
Definition amount (v : double) : doc := fun ts =>
  exists l b e vars, ts = map EX l /\ sentence b Sum e l /\ value strtod call pow symrec_new e v vars.

Local Open Scope string_scope.
Definition yes_or_no (b : bool) : doc := word (if b then "YES" else "NO").
Definition latitude (x : lat_entry) : doc :=
  amount (le_value x) ;+
  match le_suffix x with no_hemisphere => nothing | North => word "N" | South => word "S" end ;+
  match le_kind x with Centric => nothing // word "C" | Graphic => word "G" end.
Definition longitude (x : lon_entry) : doc :=
  amount (lo_value x) ;+ match lo_suffix x with no_direction => nothing | East => word "E" | West => word "W" end.
Definition point (lat lon : string) (p : point_entry) : doc :=
  match p with
  | lat_first a o => under lat (latitude a) ;+ under lon (longitude o)
  | lon_first o a => under lon (longitude o) ;+ under lat (latitude a)
  end.
Definition sub_observ := point "SUB_OBSERV_LAT" "SUB_OBSERV_LON".
Definition sub_solar := point "SUB_SOLAR_LAT" "SUB_SOLAR_LON".
Definition position_angle (x : angle_entry) : doc :=
  under "POSITION_ANGLE"
    (amount (ae_value x) ;+ match ae_turn x with no_turn => nothing | CW => word "CW" | CCW => word "CCW" end).
Definition range (x : range_entry) : doc :=
  under "RANGE" (amount (re_value x) ;+ match re_unit x with no_unit => nothing | KM => word "KM" | AU => word "AU" end).

Definition grid_intervals (i : intervals) : doc :=
  match i with
  | both_intervals x => under "GRID_INTERVAL" (amount x)
  | lat_interval x => under "LAT_GRID_INTERVAL" (amount x)
  | lon_interval x => under "LON_GRID_INTERVAL" (amount x)
  | lat_lon_interval x y => under "LAT_GRID_INTERVAL" (amount x) ;+ under "LON_GRID_INTERVAL" (amount y)
  | lon_lat_interval y x => under "LON_GRID_INTERVAL" (amount y) ;+ under "LAT_GRID_INTERVAL" (amount x)
  end.
Definition limits (r : data_range) : doc :=
  match r with
  | no_range => nothing
  | min_only x => under "DATA_MIN" (amount x)
  | max_only x => under "DATA_MAX" (amount x)
  | min_max x y => under "DATA_MIN" (amount x) ;+ under "DATA_MAX" (amount y)
  | max_min y x => under "DATA_MAX" (amount y) ;+ under "DATA_MIN" (amount x)
  end.

(** NIBBLE alone, or entries for sides in any order in which left and right as
    well as top and bottom stand together. *)
Definition side_key (s : side) : string :=
  match s with all_sides => "NIBBLE" | left_side => "NIBBLE_LEFT" | right_side => "NIBBLE_RIGHT" | top_side => "NIBBLE_TOP"
  | bottom_side => "NIBBLE_BOTTOM" end.
Definition across (s : side) : bool := match s with left_side | right_side => true | _ => false end.
Definition orderly (l : list side) : bool :=
  match l with
  | [] => true
  | [_] => true
  | [left_side; right_side] | [right_side; left_side] | [top_side; bottom_side] | [bottom_side; top_side] => true
  | [a; b] => match a, b with all_sides, _ | _, all_sides => false | _, _ => xorb (across a) (across b) end
  | [left_side; right_side; c] | [right_side; left_side; c] => match c with top_side | bottom_side => true | _ => false end
  | [top_side; bottom_side; c] | [bottom_side; top_side; c] => across c
  | [a; left_side; right_side] | [a; right_side; left_side] => match a with top_side | bottom_side => true | _ => false end
  | [a; top_side; bottom_side] | [a; bottom_side; top_side] => across a
  | [left_side; right_side; top_side; bottom_side] | [left_side; right_side; bottom_side; top_side]
  | [right_side; left_side; top_side; bottom_side] | [right_side; left_side; bottom_side; top_side]
  | [top_side; bottom_side; left_side; right_side] | [top_side; bottom_side; right_side; left_side]
  | [bottom_side; top_side; left_side; right_side] | [bottom_side; top_side; right_side; left_side] => true
  | _ => false
  end.
Definition nibbles_written (l : nibbling) : doc :=
  if orderly (map fst l) then each (fun x => under (side_key (fst x)) (whole (snd x))) l else impossible.

Definition center (c : centers) : doc :=
  match c with
  | sample_line x y => under "SAMPLE_CENTER" (amount x) ;+ under "LINE_CENTER" (amount y)
  | line_sample y x => under "LINE_CENTER" (amount y) ;+ under "SAMPLE_CENTER" (amount x)
  | at_center p => point "LAT_AT_CENTER" "LON_AT_CENTER" p
  end.
Definition axis (a : axis_entry) : doc :=
  match a with
  | sample_line_oa x y => under "SAMPLE_OA" (amount x) ;+ under "LINE_OA" (amount y)
  | line_sample_oa y x => under "LINE_OA" (amount y) ;+ under "SAMPLE_OA" (amount x)
  end.
Definition scale (s : scale_entry) : doc :=
  match s with
  | km_per_pixel x => under "KM_PER_PIXEL" (amount x)
  | arcsec_per_pix x => under "ARCSEC_PER_PIX" (amount x)
  | focal_scale x y => under "FOCAL_LENGTH" (amount x) ;+ under "PIXEL_SCALE" (amount y)
  | scale_focal y x => under "PIXEL_SCALE" (amount y) ;+ under "FOCAL_LENGTH" (amount x)
  end.
Definition image (i : image_entry) : doc :=
  under "IMAGE" (line (ie_file i)) ;+
  nibbles_written (ie_nibbling i) ;+
  given (ie_inversion i) (fun v =>
    under "INVERT" (word (match v with vertical => "VERTICAL" | horizontal => "HORIZONTAL" | both_ways => "BOTH" end))) ;+
  given (ie_interpolate i) (fun b => under "INTERPOLATE" (yes_or_no b)) ;+
  given (ie_remove_sky i) (fun b => under "REMOVE_SKY" (yes_or_no b)) ;+
  center (ie_centers i) ;+
  given (ie_axis i) axis ;+
  given (ie_flat_field i) (fun s => under "FLAT_FIELD" (line s)) ;+
  (* nothing comes of it *)
  (nothing // under "MINNAERT" ((fun ts => exists v, amount v ts) // word "AUTO" // word "TABLE")) ;+
  given (ie_geom_correct i) (fun b => under "GEOM_CORRECT" (yes_or_no b)) ;+
  given (ie_emi_ang_limit i) (fun x => under "EMI_ANG_LIMIT" (amount x)) ;+
  given (ie_terminator i) (fun b => under "TERMINATOR" (yes_or_no b)) ;+
  sub_observ (ie_sub_observ i) ;+
  position_angle (ie_position_angle i) ;+
  sub_solar (ie_sub_solar i) ;+
  range (ie_range i) ;+
  scale (ie_scale i).

Definition lat_kind_word (k : lat_kind) : doc := word (match k with Centric => "CENTRIC" | Graphic => "GRAPHIC" end).
(** With or without LATITUDE_TYPE. *)
Definition type_of_latitude (k : lat_kind) : doc := under "LATITUDE_TYPE" (lat_kind_word k) // lat_kind_word k.
Definition content (t : plane_type) : doc :=
  match t with
  | T_image i l => each image (i :: l)
  | T_mu o r s => under "MU" (sub_observ o ;+ range r ;+ given s sub_solar)
  | T_mu0 o s => under "MU0" (given o (fun x => sub_observ (fst x) ;+ range (snd x)) ;+ sub_solar s)
  | T_phase o r s => under "PHASE" (sub_observ o ;+ range r ;+ sub_solar s)
  | T_latitude k => under "LATITUDE" (given k type_of_latitude)
  | T_longitude => word "LONGITUDE"
  end.
Definition plane (p : plane_entry) : doc :=
  under "PLANE" (given (pe_number p) whole) ;+ limits (pe_range p) ;+ content (pe_type p).

Definition options (a : option average) : doc :=
  under "OPTIONS" (given a (fun a =>
    under "AVERAGING" (word (match a with AVG_NONE => "NONE" | AVG_UNWEIGHTED => "UNWEIGHTED" | AVG_WEIGHTED => "WEIGHTED" end)))).
(** One of the four, or those up to one of them. *)
Definition ortho_options_written (o : ortho_options) : doc :=
  let is {A} (o : option A) := match o with Some _ => true | None => false end in
  match [is (oo_sub_observ o); is (oo_position_angle o); is (oo_km_per_pixel o); is (oo_centers o)] with
  | [false; false; false; false] | [true; false; false; false] | [false; true; false; false] | [false; false; true; false]
  | [false; false; false; true] | [true; true; false; false] | [true; true; true; false] | [true; true; true; true] =>
      given (oo_sub_observ o) sub_observ ;+ given (oo_position_angle o) position_angle ;+
      given (oo_km_per_pixel o) (fun x => under "KM_PER_PIXEL" (amount x)) ;+ given (oo_centers o) center
  | _ => impossible
  end.
Definition lat_limits (r : lat_range) : doc :=
  match r with
  | lo_hi_lat x y => under "LO_LAT" (latitude x) ;+ under "HI_LAT" (latitude y)
  | hi_lo_lat y x => under "HI_LAT" (latitude y) ;+ under "LO_LAT" (latitude x)
  end.
Definition lon_limits (r : lon_range) : doc :=
  match r with
  | lo_hi_lon x y => under "LO_LON" (longitude x) ;+ under "HI_LON" (longitude y)
  | hi_lo_lon y x => under "HI_LON" (longitude y) ;+ under "LO_LON" (longitude x)
  end.
Definition projection_written (p : projection_entry) : doc :=
  match p with
  | T_mercator o => under "TYPE" (word "MERCATOR") ;+ given o options
  | T_ortho o => under "TYPE" (word "ORTHO") ;+ given o (fun x => options (fst x) ;+ ortho_options_written (snd x))
  | T_p_stereo o => under "TYPE" (word "P_STEREO") ;+ given o (fun '(a, north, max) =>
      options a ;+ under "POLE" (word (if north : bool then "N" else "S")) ;+ given max (fun x => under "MAX_LAT" (latitude x)))
  | T_simple_c o => under "TYPE" (word "SIMPLE_C") ;+ given o (fun '(a, k, lat, lon) =>
      options a ;+ given k type_of_latitude ;+
      let lat := given lat lat_limits in
      let lon := given lon lon_limits in
      (lat ;+ lon) // (lon ;+ lat))
  end.

Definition radii_written (r : radii_entry ar_double) : doc :=
  let both a x b y := (under a (amount x) ;+ under b (amount y)) // (under b (amount y) ;+ under a (amount x)) in
  match r with
  | given_radii x y => both "EQ_RAD" x "POL_RAD" y
  | given_eq x f => both "EQ_RAD" x "FLATTENING" f
  | given_pol y f => both "POL_RAD" y "FLATTENING" f
  end.
Definition data_type (bitpix : Z) : doc :=
  if (bitpix =? 8)%Z then word "BYTE" else if (bitpix =? 16)%Z then word "SHORT" else if (bitpix =? 32)%Z then word "LONG"
  else if (bitpix =? 64)%Z then word "LONGLONG" else if (bitpix =? -32)%Z then word "FLOAT" else if (bitpix =? -64)%Z then word "DOUBLE"
  else impossible.
Definition map_written (m : map_entry) : doc :=
  under "MAP" (line (me_file m)) ;+
  given (me_author m) (fun s => under "AUTHOR" (line s)) ;+
  given (me_origin m) (fun s => under "ORIGIN" (line s)) ;+
  each (fun s => under "COMMENT" (line s)) (me_comments m) ;+
  each (fun s => under "XCOMMENT" (line s)) (me_xcomments m) ;+
  under "BODY" (line (me_body m)) ;+
  radii_written (me_radii m) ;+
  under "ROTATION" (word (if me_prograde m then "PROGRADE" else "RETROGRADE")) ;+
  given (me_offset m) (fun x => under "DATA_OFFSET" (amount x)) ;+
  given (me_scale m) (fun x => under "DATA_SCALE" (amount x)) ;+
  given (me_type m) (fun t => under "DATA_TYPE" (data_type t)) ;+
  given (me_blank m) (fun n => under "DATA_BLANK" (whole n)) ;+
  given (me_grid m) (fun g => under "GRID" (yes_or_no (fst g)) ;+ given (snd g) grid_intervals) ;+
  projection_written (me_projection m) ;+
  given (me_planes m) (fun n => under "PLANES" (whole n)) ;+
  under "SAMPLES" (whole (me_samples m)) ;+
  under "LINES" (whole (me_lines m)) ;+
  plane (me_plane m) ;+
  each plane (me_more_planes m).
Definition file_written (t : input_text) : doc :=
  match t with
  | map_text m l => each map_written (m :: l)
  | user_text u => grid_intervals (ue_intervals u) ;+ limits (ue_range u) ;+ nibbles_written (ue_nibbling u)
  end.
End Writing.
