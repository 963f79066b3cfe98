(** What the entries of input files mean, without any memory of other entries
    (C66, C67, C68). *)
From Coq Require Import List ZArith Bool String.
From Flocq Require Import Core BinarySingleNaN.
From Verif Require Import Base Flt Num Spheroid_Model Extrema_Model Ortho_Model Params_Model Entry_Model Parse_Model.
Import ListNotations.
Open Scope Z_scope.

Definition obind {A B} (x : option A) (f : A -> option B) : option B := match x with Some a => f a | None => None end.
Notation "'do' x <- m ; k" := (obind m (fun x => k)) (at level 200, x pattern, m at level 100, k at level 200).
Fixpoint all_some {A B} (f : A -> option B) (l : list A) : option (list B) :=
  match l with
  | [] => Some []
  | a :: l => do b <- f a; do r <- all_some f l; Some (b :: r)
  end.
Definition or_else {A} (o : option A) (d : A) : A := match o with Some a => a | None => d end.
Definition optional {A B} (o : option A) (f : A -> option B) : option (option B) :=
  match o with Some a => do b <- f a; Some (Some b) | None => Some None end.
(** The value of an entry that is accepted. *)
Definition kept {A} (p : parsed A) : option A := match p with Parsed a => Some a | _ => None end.
Definition done {A} (o : outcome A) : option A := match o with Ok a => Some a | _ => None end.

(** ** Numbers of planes (C68) *)

(** The plane numbers written in a map, and the number of planes announced. *)
Definition written_numbers (m : map_entry) : option (list Z) :=
  all_some (fun n => kept (integer n))
    (flat_map (fun p => match pe_number p with Some n => [n] | None => [] end) (me_plane m :: me_more_planes m)).
Definition plane_count (m : map_entry) : Z := Z.of_nat (S (List.length (me_more_planes m))).

(** 1, 2, ..., n *)
Fixpoint count_up (from : Z) (n : nat) : list Z :=
  match n with O => [] | S n => from :: count_up (from + 1) n end.

(** The planes are numbered as they should be: the announced number is the
    number of planes, and the numbers written are 1, 2, 3, ...; without an
    announced number none is written. *)
Definition numbered (m : map_entry) : Prop :=
  exists l, written_numbers m = Some l /\
  match me_planes m with
  | Some n => integer n = Parsed (plane_count m) /\ l = count_up 1 (List.length l)
  | None => l = []
  end.

(** The map without PLANES and plane numbers. *)
Definition strip_plane (p : plane_entry) : plane_entry := PlaneEntry None (pe_range p) (pe_type p).
Definition strip (m : map_entry) : map_entry :=
  MapEntry (me_file m) (me_author m) (me_origin m) (me_comments m) (me_xcomments m) (me_body m) (me_radii m)
    (me_prograde m) (me_offset m) (me_scale m) (me_type m) (me_blank m) (me_grid m) (me_projection m) None
    (me_samples m) (me_lines m) (strip_plane (me_plane m)) (map strip_plane (me_more_planes m)).

(** ** Latitude types (C67) *)

(** Where a latitude type is or may be given, in order: by a SIMPLE_C projection
    or a LATITUDE plane. *)
Inductive mention := by_projection (k : option lat_kind) | by_plane (k : option lat_kind).
Definition plane_mentions (p : plane_entry) : list mention :=
  match pe_type p with T_latitude k => [by_plane k] | _ => [] end.
Definition mentions (m : map_entry) : list mention :=
  match me_projection m with
  | T_simple_c (Some (_, k, _, _)) => [by_projection k]
  | T_simple_c None => [by_projection None]
  | _ => []
  end ++ flat_map plane_mentions (me_plane m :: me_more_planes m).

(** A type is left out only where no LATITUDE plane said GRAPHIC since the last
    LATITUDE plane with a type or SIMPLE_C projection; [graphic] says whether
    one did. *)
Fixpoint settled (graphic : bool) (l : list mention) : Prop :=
  match l with
  | [] => True
  | by_projection None :: l => graphic = false /\ settled false l
  | by_projection (Some _) :: l => settled false l
  | by_plane None :: l => graphic = false /\ settled false l
  | by_plane (Some Centric) :: l => settled false l
  | by_plane (Some Graphic) :: l => settled true l
  end.

(** The maps of map files. *)
Definition maps_of (ts : list (map_entry * list map_entry)) : list map_entry := flat_map (fun t => fst t :: snd t) ts.
Definition texts_of (ts : list (map_entry * list map_entry)) : list input_text :=
  map (fun t => map_text (fst t) (snd t)) ts.
(** An optional user file, then the map files, src/marc.cpp:191-219. *)
Definition texts (u : option user_entry) (ts : list (map_entry * list map_entry)) : list input_text :=
  match u with Some u => [user_text u] | None => [] end ++ texts_of ts.
Definition strip_texts (ts : list (map_entry * list map_entry)) : list (map_entry * list map_entry) :=
  map (fun t => (strip (fst t), map strip (snd t))) ts.
Definition unmixed (ts : list (map_entry * list map_entry)) : Prop := settled false (flat_map mentions (maps_of ts)).

(** ** User configuration (C66) *)

(** The last value given for a side. *)
Definition covers (given s : side) : bool :=
  match given, s with
  | all_sides, _ | left_side, left_side | right_side, right_side | top_side, top_side | bottom_side, bottom_side => true
  | _, _ => false
  end.
Definition last_given (s : side) (d : Z) (l : list (side * Z)) : Z :=
  or_else (option_map snd (find (fun e => covers (fst e) s) (rev l))) d.
Definition nibbles_of (d : nibbles) (l : nibbling) : option nibbles :=
  do v <- all_some (fun e => do n <- kept (nibble_size (snd e)); Some (fst e, n)) l;
  Some (Nibbles (last_given left_side (nb_left d) v) (last_given right_side (nb_right d) v)
          (last_given top_side (nb_top d) v) (last_given bottom_side (nb_bottom d) v)).

(** The intervals given, which must not be [<= 0]. *)
Definition interval_given (x : double) : option double := if fle x (double_of_Z 0) then None else Some x.
Definition intervals_of (d : double * double) (i : intervals) : option (double * double) :=
  match i with
  | both_intervals x => do x <- interval_given x; Some (x, x)
  | lat_interval x => do x <- interval_given x; Some (x, snd d)
  | lon_interval x => do x <- interval_given x; Some (fst d, x)
  | lat_lon_interval a o | lon_lat_interval o a => do a <- interval_given a; do o <- interval_given o; Some (a, o)
  end.

(** The limits given, where both in order. *)
Definition range_of (d : option double * option double) (r : data_range) : option (option double * option double) :=
  match r with
  | no_range => Some d
  | min_only x => Some (Some x, snd d)
  | max_only x => Some (fst d, Some x)
  | min_max lo hi | max_min hi lo => if flt lo hi then Some (Some lo, Some hi) else None
  end.

(** The defaults a user file asks for, starting from others. *)
Definition user_says (d : defaults) (u : user_entry) : option defaults :=
  do i <- intervals_of (d_lat_interval d, d_lon_interval d) (ue_intervals u);
  do r <- range_of (d_minimum d, d_maximum d) (ue_range u);
  do n <- nibbles_of (d_nibbles d) (ue_nibbling u);
  Some (Defaults (fst i) (snd i) (fst r) (snd r) n).

(** A user file the parser follows: both intervals, no data limits, and nibble
    values that fit unsigned int. *)
Definition both_given (i : intervals) : Prop :=
  match i with lat_interval _ | lon_interval _ => False | _ => True end.
Definition followed (u : user_entry) : Prop :=
  both_given (ue_intervals u) /\ ue_range u = no_range /\
  Forall (fun e => forall n, nibble_size (snd e) = Parsed n -> n < 2 ^ 32) (ue_nibbling u).

(** The grid and the data limits of the planes of a map. *)
Definition grid_says (d : defaults) (m : map_entry) : option (option (double * double)) :=
  match me_grid m with
  | Some (true, i) =>
      let dd := (d_lat_interval d, d_lon_interval d) in
      do i <- match i with Some i => intervals_of dd i | None => Some dd end; Some (Some i)
  | Some (false, Some i) => do _ <- intervals_of (d_lat_interval d, d_lon_interval d) i; Some None
  | _ => Some None
  end.
Definition number_or_none (x : option double) : bool := match x with Some x => negb (is_nan x) | None => true end.
Definition limits_say (d : defaults) (r : data_range) : option (extrema (ct F64)) :=
  do x <- range_of (d_minimum d, d_maximum d) r;
  if number_or_none (fst x) && number_or_none (snd x)
  then Some (Extrema (T := ct F64) (fst x) (snd x)) else None.

(** ** The meaning of a map *)
Section Meaning.
Context (fmod : double -> double -> double) (degree : double) (centric : body -> double -> double) (au : double).
Context (construct : projection -> option exn) (opens : string -> option exn)
  (refuses : body -> list vcall -> vcall -> option exn).

Definition lat_of (b : body) (l : lat_entry) : option double :=
  kept (latitude (A := ar_double) Bopp degree (centric b) (le_suffix l) (le_kind l) (le_value l)).
Definition lon_of (b : body) (l : lon_entry) : option double :=
  kept (longitude (A := ar_double) fmod (prograde b) (lo_suffix l) (lo_value l)).
Definition point_of (b : body) (p : point_entry) : option (double * double) :=
  match p with lat_first a o | lon_first o a => do x <- lat_of b a; do y <- lon_of b o; Some (x, y) end.
Definition angle_of (a : angle_entry) : option double :=
  kept (position_angle (A := ar_double) fmod (ae_turn a) (ae_value a)).
Definition range_km (r : range_entry) : double := range (A := ar_double) au (re_unit r) (re_value r).

(** Calls on the viewing geometry; two numbers are needed for a center, and
    focal lengths and pixel scales that are not positive are passed over. *)
Definition two_numbers (x y : double) : bool := negb (is_nan x) && negb (is_nan y).
Definition center_calls (b : body) (c : centers) : option (list vcall) :=
  match c with
  | sample_line s l | line_sample l s => Some (if two_numbers s l then [v_body_center s l] else [])
  | at_center p => do x <- point_of b p; Some (if two_numbers (fst x) (snd x) then [v_lat_lon_center (fst x) (snd x)] else [])
  end.
Definition scale_calls (s : scale_entry) : option (list vcall) :=
  match s with
  | km_per_pixel x => if positive x then Some [v_km_per_pixel x] else None
  | arcsec_per_pix x => if positive x then Some [v_arcsec_per_pixel x] else None
  | focal_scale f s | scale_focal s f =>
      Some ((if positive f then [v_focal_length f] else []) ++ (if positive s then [v_scale s] else []))
  end.
Definition option_calls (i : image_entry) : list vcall :=
  match ie_axis i with
  | Some (sample_line_oa s l) | Some (line_sample_oa l s) => [v_optical_axis s l]
  | None => []
  end
  ++ match ie_emi_ang_limit i with Some x => [v_emi_ang_limit x] | None => [] end
  ++ match ie_terminator i with Some x => [v_use_terminator x] | None => [] end.

(** None of the calls, in this order, throws. *)
Fixpoint allowed (b : body) (before calls : list vcall) : bool :=
  match calls with
  | [] => true
  | c :: calls => match refuses b before c with Some _ => false | None => allowed b (before ++ [c]) calls end
  end.
Definition nothing_thrown (e : option exn) : bool := match e with Some _ => false | None => true end.

Definition image_of (d : defaults) (b : body) (i : image_entry) : option photo_factory :=
  do n <- nibbles_of (d_nibbles d) (ie_nibbling i);
  do c <- center_calls b (ie_centers i);
  do o <- point_of b (ie_sub_observ i);
  do a <- angle_of (ie_position_angle i);
  do s <- point_of b (ie_sub_solar i);
  do k <- scale_calls (ie_scale i);
  let calls :=
    option_calls i ++ [v_sub_observ (fst o) (snd o); v_position_angle a; v_sub_solar (fst s) (snd s);
                       v_range (range_km (ie_range i))] ++ k ++ c in
  if nothing_thrown (opens (ie_file i)) && allowed b [] calls then
    Some (PhotoFactory (ie_file i) (or_else (ie_flat_field i) EmptyString) (or_else (ie_geom_correct i) false)
            (or_else (ie_interpolate i) false)
            (match ie_inversion i with Some vertical | Some both_ways => true | _ => false end)
            (match ie_inversion i with Some horizontal | Some both_ways => true | _ => false end)
            (Some (PhotoParameters n (or_else (ie_remove_sky i) false)))
            (Some (View b calls)))
  else None.

Definition is_graphic (k : option lat_kind) : bool := match k with Some Graphic => true | _ => false end.

Definition source_of (d : defaults) (b : body) (avg : average) (t : plane_type) : option source_factory :=
  match t with
  | T_image i more =>
      do l <- all_some (image_of d b) (i :: more);
      Some (match l with [p] => F_photo p | _ => F_mosaic l avg end)
  | T_mu o r s =>
      do o <- point_of b o; do _ <- optional s (point_of b);
      Some (F_mu b (fst o) (snd o) (range_km r))
  | T_mu0 o s =>
      do _ <- optional o (fun o => point_of b (fst o)); do s <- point_of b s;
      Some (F_mu0 b (fst s) (snd s))
  | T_phase o r s =>
      do o <- point_of b o; do s <- point_of b s;
      Some (F_phase b (fst o) (snd o) (fst s) (snd s) (range_km r))
  | T_latitude k => Some (F_latitude b (is_graphic k))
  | T_longitude => Some F_longitude
  end.

Definition plane_of (d : defaults) (b : body) (avg : average) (p : plane_entry) : option image_factory :=
  do e <- limits_say d (pe_range p);
  do s <- source_of d b avg (pe_type p);
  Some (ImageFactory s e).

Definition ortho_center_of (b : body) (c : centers) : option (Ortho_Model.center ar_double) :=
  match c with
  | sample_line s l | line_sample l s =>
      Some (if two_numbers s l then center_given (A := ar_double) s l else default_center)
  | at_center p =>
      do x <- point_of b p;
      Some (if two_numbers (fst x) (snd x) then lat_lon_given (A := ar_double) (fst x) (snd x) else default_center)
  end.
Definition lat_range_of (b : body) (r : lat_range) : option (double * double) :=
  match r with
  | lo_hi_lat lo hi | hi_lo_lat hi lo =>
      do x <- lat_of b lo; do y <- lat_of b hi; if flt x y then Some (x, y) else None
  end.
Definition lon_range_of (b : body) (r : lon_range) : option (double * double) :=
  match r with lo_hi_lon lo hi | hi_lo_lon hi lo => do x <- lon_of b lo; do y <- lon_of b hi; Some (x, y) end.

Local Notation Zc := double_of_Z.
Definition projection_args (b : body) (p : projection_entry) : option projection :=
  match p with
  | T_mercator _ => Some (Mercator b)
  | T_ortho None => Some (Orthographic b (Zc 0) (Zc 0) (Zc 0) (Zc (-1)) default_center)
  | T_ortho (Some (_, o)) =>
      do so <- optional (oo_sub_observ o) (point_of b);
      do pa <- optional (oo_position_angle o) angle_of;
      do km <- optional (oo_km_per_pixel o) (fun x => if positive x then Some x else None);
      do c <- optional (oo_centers o) (ortho_center_of b);
      let so := or_else so (Zc 0, Zc 0) in
      Some (Orthographic b (fst so) (snd so) (or_else pa (Zc 0)) (or_else km (Zc (-1))) (or_else c default_center))
  | T_p_stereo None => Some (PolarStereographic b nan true)
  | T_p_stereo (Some (_, north, m)) =>
      do m <- optional m (lat_of b); Some (PolarStereographic b (or_else m nan) north)
  | T_simple_c None => Some (SimpleCylindrical b (Zc (-90)) (Zc 90) (Zc 0) (Zc 360) false)
  | T_simple_c (Some (_, k, lats, lons)) =>
      do lats <- optional lats (lat_range_of b);
      do lons <- optional lons (lon_range_of b);
      let lats := or_else lats (Zc (-90), Zc 90) in
      let lons := or_else lons (Zc 0, Zc 360) in
      Some (SimpleCylindrical b (fst lats) (snd lats) (fst lons) (snd lons) (is_graphic k))
  end.
Definition projection_of (b : body) (p : projection_entry) : option projection :=
  do x <- projection_args b p; if nothing_thrown (construct x) then Some x else None.
Definition average_of (p : projection_entry) : average :=
  match p with
  | T_mercator (Some (Some a)) | T_ortho (Some (Some a, _)) | T_p_stereo (Some (Some a, _, _))
  | T_simple_c (Some (Some a, _, _, _)) => a
  | _ => AVG_WEIGHTED
  end.

(** The map parameters: the setters called for what is given. *)
Definition when {A} (o : option A) (f : A -> params -> params) (p : params) : params :=
  match o with Some a => f a p | None => p end.
Definition params_of (m : map_entry) : option params :=
  do p <- done (params_new 0);
  let p := when (me_author m) (set_str k_author) p in
  let p := when (me_origin m) (set_str k_origin) p in
  let p := fold_left (fun p s => push_comment s p) (me_comments m) p in
  let p := fold_left (fun p s => push_xcomment s p) (me_xcomments m) p in
  let p := set_str k_object (me_body m) p in
  let p := when (me_offset m) (fun x => set_dbl k_bzero (Some x)) p in
  let p := when (me_scale m) (fun x => set_dbl k_bscale (Some x)) p in
  do p <- match me_type m with Some t => done (set_bitpix t p) | None => Some p end;
  match me_blank m with Some n => kept (data_blank n p) | None => Some p end.

(** Everything but the numbers of the planes. *)
Definition map_body (d : defaults) (m : map_entry) : option map_command :=
  do p <- params_of m;
  do b <- done (body_spheroid (me_prograde m) (me_radii m));
  do g <- grid_says d m;
  do x <- projection_of b (me_projection m);
  do s <- kept (positive_size (me_samples m));
  do l <- kept (positive_size (me_lines m));
  do i <- all_some (plane_of d b (average_of (me_projection m))) (me_plane m :: me_more_planes m);
  Some (MapCommand (me_file m) s l x p g i).

(** The commands of maps. *)
Definition means (d : defaults) (m : map_entry) (c : map_command) : Prop := map_body d m = Some c /\ numbered m.
End Meaning.
