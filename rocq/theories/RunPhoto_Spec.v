(** Specification vocabulary for C105 to C107: photos in maps. *)
From Coq Require Import List ZArith Reals Bool String.
From Flocq Require Import Core BinarySingleNaN.
From Verif Require Import Base Flt Num Maths_Model Extrema_Model Proj_Model Entry_Model Photo_Model Photo_Spec Input_Model Input_Spec PhotoRead_Spec Parse_Model Parse_Spec Run_Model.
From Verif Require Import View_Model.
Import ListNotations.

#[local] Existing Instance prec53.
#[local] Existing Instance emax53.
Local Notation not_a_number := (B754_nan : double).

(** Degrees to radians, and longitudes below 0 one turn up. *)
Definition radians (X : outside) (x : double) : double := Bmult mode_NE x (l_degree (x_libm X)).
Definition radians_east (X : outside) (x : double) : double :=
  if flt (radians X x) (double_of_Z 0) then Bplus mode_NE (radians X x) (l_2pi (x_libm X)) else radians X x.

(** The members of the viewing geometry of an image entry: [o] and [s] are the
    points below observer and sun, [pa] the position angle (degrees), [c] the
    point at the centre. *)
Definition seen (X : outside) (i : image_entry) (o s : double * double) (pa : double) (c : option (double * double)) (m : member) : double :=
  let range := range_km (x_au X) (ie_range i) in
  let center a b x := if two_numbers a b then x else not_a_number in
  match m with
  | sub_observ_lat_ => radians X (fst o)
  | sub_observ_lon_ => radians_east X (snd o)
  | sub_solar_lat_ => radians X (fst s)
  | sub_solar_lon_ => radians_east X (snd s)
  | range_ => range
  | position_angle_ => radians X pa
  | km_per_pixel_ =>
      match ie_scale i with
      | km_per_pixel x => x
      | arcsec_per_pix x =>
          Bmult mode_NE (Bmult mode_NE (Bdiv mode_NE (l_pi (x_libm X)) (double_of_Z 648000)) x) range
      | _ => not_a_number
      end
  | focal_length_ =>
      match ie_scale i with focal_scale f _ | scale_focal _ f => if flt (double_of_Z 0) f then f else not_a_number | _ => not_a_number end
  | scale_ =>
      match ie_scale i with focal_scale _ s | scale_focal s _ => if flt (double_of_Z 0) s then s else not_a_number | _ => not_a_number end
  | OA_s_ => match ie_axis i with Some (sample_line_oa s _) | Some (line_sample_oa _ s) => s | None => not_a_number end
  | OA_l_ => match ie_axis i with Some (sample_line_oa _ l) | Some (line_sample_oa l _) => l | None => not_a_number end
  | sample_center_ => match ie_centers i with sample_line s l | line_sample l s => center s l s | at_center _ => not_a_number end
  | line_center_ => match ie_centers i with sample_line s l | line_sample l s => center s l l | at_center _ => not_a_number end
  | lat_at_center_ => match c with Some (lat, lon) => center lat lon (radians X lat) | None => not_a_number end
  | lon_at_center_ => match c with Some (lat, lon) => center lat lon (radians_east X lon) | None => not_a_number end
  | mu_limit_ => match ie_emi_ang_limit i with Some x => l_cos (x_libm X) (radians X x) | None => double_of_Z 0 end
  end.

(** The meaning of an image entry, as in the meaning of maps (C66). *)
Definition image_means (X : outside) (d : defaults) (b : body) (i : image_entry) : option photo_factory :=
  image_of (x_fmod X) (l_degree (x_libm X)) (x_centric X) (x_au X) (opens X) (refuses X) d b i.
Definition point_means (X : outside) (b : body) (p : point_entry) : option (double * double) :=
  point_of (x_fmod X) (l_degree (x_libm X)) (x_centric X) b p.

(** The source [src] is the one asked for by image entry [i]: it reads the file
    named, with the flat field, turns, lens correction, interpolation, sky removal
    and nibbles asked for, and each member of its viewing geometry is what the
    entry says. *)
Definition follows (X : outside) (b : body) (i : image_entry) (limits : extrema (ct F64)) (src : photo_source ar_double place) : Prop :=
  exists o s pa c nb g,
    point_means X b (ie_sub_observ i) = Some o /\ point_means X b (ie_sub_solar i) = Some s /\
    angle_of (x_fmod X) (ie_position_angle i) = Some pa /\
    (match ie_centers i with at_center q => c = point_means X b q /\ c <> None | _ => c = None end) /\
    nibbles_of (Parse_Model.Nibbles 0 0 0 0) (ie_nibbling i) = Some nb /\
    (forall member, g member = seen X i o s pa c member) /\
    src =
      PhotoSource (x_file X (ie_file i))
        (match or_else (ie_flat_field i) EmptyString with EmptyString => None | s => Some (x_file X s) end)
        (or_else (ie_geom_correct i) false) (or_else (ie_interpolate i) false)
        (match ie_inversion i with Some vertical | Some both_ways => true | _ => false end)
        (match ie_inversion i with Some horizontal | Some both_ways => true | _ => false end)
        (Some (Photo_Model.Nibbles (nb_left nb) (nb_right nb) (nb_top nb) (nb_bottom nb), or_else (ie_remove_sky i) false))
        (Some (x_geometry X b g (or_else (ie_terminator i) false))) limits.

(** What a photo has at point [q], with the interpolation, sky removal and nibbles
    of its source and the viewing geometry made ready for it. *)
Definition sound (src : photo_source ar_double place) : Prop :=
  flat_source (A := ar_double) src /\ exists ready n sky s l, proper (A := ar_double) src ready n sky s l.
Definition has (src : photo_source ar_double place) (q : place) (r : found ar_double) : Prop :=
  exists ready n sky s l, proper (A := ar_double) src ready n sky s l /\
    finds (A := ar_double) (not_a_number : ar_double) src ready n sky s l q r.
Definition pictures (src : photo_source ar_double place) (q : place) (w : double) : Prop :=
  exists weight, has src q (datum (w : ar_double) weight).

(** The same without options: the viewing geometry [ready] puts [q] on pixel
    (sample [i], line [k]) inside the nibbles [n], and [w] is the value of the
    source there (turned and less the flat field) and not NaN. *)
Definition plainly (src : photo_source ar_double place) (ready : geometry ar_double place) (n : Photo_Model.nibbles) (samples lines : Z)
    (q : place) (w : double) : Prop :=
  exists (x z : double) i k, g_pix ready q = (true, x, z) /\ flt x (double_of_Z 0) = false /\ flt z (double_of_Z 0) = false /\
    a_size ar_double x = Ok i /\ a_size ar_double z = Ok k /\ in_window n samples lines i k /\
    w = photo_value (A := ar_double) (not_a_number : ar_double) src samples lines i k /\ is_nan w = false.

(** The value of a mosaic of photos at [q]. *)
Definition composes (X : outside) (a : average) (l : list (photo_source ar_double place)) (q : place) (w : double) : Prop :=
  match a with
  | AVG_NONE => exists before src after rs, l = before ++ src :: after /\ Forall2 (fun p r => has p q r) before rs /\ Forall silent rs /\ pictures src q w
  | AVG_UNWEIGHTED => exists rs, Forall2 (fun p r => has p q r) l rs /\ average_of_found (x_long X) rs = Some (w : ar_double)
  | AVG_WEIGHTED => exists rs, Forall2 (fun p r => has p q r) l rs /\ weighted_of_found (x_long X) rs = Some (w : ar_double)
  end.
