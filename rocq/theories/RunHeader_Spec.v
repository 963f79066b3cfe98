(** Specification vocabulary for C108: the headers of map files. *)
From Coq Require Import List ZArith Bool String.
From Flocq Require Import BinarySingleNaN.
From Verif Require Import Base Flt Num Maths_Model Extrema_Model MakeMap_Model Params_Model Fits_Model Command_Model Command_Spec Entry_Model Entry_Spec Parse_Model
  Parse_Spec Run_Model.
Import ListNotations.
Open Scope list_scope.

Definition planes_of (e : map_entry) : list plane_entry := me_plane e :: me_more_planes e.

(** The header that a plane of photos goes by: that of its last photo. *)
Definition header_of (X : outside) (p : plane_entry) : option header :=
  match pe_type p with T_image i more => Some (x_header X (ie_file (List.last more i))) | _ => None end.
(** What a plane says under a keyword. *)
Definition said (X : outside) (k : skey) (p : plane_entry) : string :=
  match pe_type p, k with
  | T_image i more, _ => h_str (x_header X (ie_file (List.last more i))) k
  | (T_latitude _ | T_longitude), k_bunit => "deg"%string
  | _, _ => EmptyString
  end.
(** What is said first, if anything is said. *)
Definition first_said (l : list string) : string :=
  match find (fun s => negb (String.eqb s EmptyString)) l with Some s => s | None => EmptyString end.
Definition first_some {A B} (f : A -> option B) (l : list A) : option B :=
  fold_right (fun a r => match f a with Some b => Some b | None => r end) None l.
(** The value for a keyword: the one of the entry, or else the first of the
    planes. *)
Definition under (X : outside) (e : map_entry) (k : skey) (given : option string) : string :=
  match given with Some s => s | None => first_said (map (said X k) (planes_of e)) end.

Definition title (p : projection_entry) : string :=
  match p with
  | T_mercator _ => "Mercator"
  | T_ortho _ => "Orthographic"
  | T_p_stereo _ => "Polar Stereographic"
  | T_simple_c _ => "Simple Cylindrical"
  end%string.

(** BITPIX and BLANK. *)
Definition bitpix_is (X : outside) (e : map_entry) (b : Z) : Prop :=
  match me_type e with
  | Some n => b = n
  | None => first_some (fun p => option_map h_bitpix (header_of X p)) (planes_of e) = Some b
  end.
Definition blank_is (X : outside) (e : map_entry) (b : option Z) : Prop :=
  match me_blank e with
  | Some n => exists z, integer n = Parsed z /\ b = Some z
  | None => b = first_some (fun p => match header_of X p with Some h => h_blank h | None => None end) (planes_of e)
  end.
Definition whole_numbers (t : mapty) : bool := match t with F32 | F64 => false | _ => true end.

(** The cards of plane [n] of [num]: those of a computed plane of whole numbers. *)
Definition plane_cards (X : outside) (e : map_entry) (t : mapty) (num n : Z) (p : plane_entry) (l : list card) : Prop :=
  match pe_type p with
  | T_image _ _ => l = []
  | _ =>
      if whole_numbers t then
        exists scale zero, l = string_card "BUNIT" (under X e k_bunit None) ++
          if Z.eqb num 1 then double_card "BSCALE" scale ++ double_card "BZERO" zero else [card_plane n; card_bscale scale; card_bzero zero]
      else l = []
  end.

(** The whole header of the map [e] of type [t] with [num] planes. *)
Definition header_says (X : outside) (e : map_entry) (t : mapty) (l : list card) : Prop :=
  exists blank scalings limits,
    blank_is X e blank /\
    List.length scalings = List.length (planes_of e) /\
    (forall j p cs, nth_error (planes_of e) j = Some p -> nth_error scalings j = Some cs ->
       plane_cards X e t (Z.of_nat (List.length (planes_of e))) (Z.of_nat j + 1) p cs) /\
    (limits = [] \/ exists mn mx : ct t, limits = datum_card "DATAMIN" t mn ++ datum_card "DATAMAX" t mx) /\
    l = (match blank with Some z => if whole_numbers t then [key_int "BLANK" z] else [] | None => [] end) ++
        string_card "AUTHOR" (under X e k_author (me_author e)) ++
        string_card "ORIGIN" (under X e k_origin (me_origin e)) ++
        string_card "OBJECT" (me_body e) ++
        map card_comment (me_comments e) ++ [card_projection (title (me_projection e))] ++
        List.concat scalings ++ limits.
(** The header of the grid. *)
Definition grid_header (e : map_entry) : list card :=
  map card_comment (me_xcomments e) ++
  [card_grid (title (me_projection e)); key_double "DATAMIN" (double_of_Z 255); key_double "DATAMAX" (double_of_Z 255); key_int "BLANK" 0].
