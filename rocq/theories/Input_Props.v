(** C94, C95: source images and the photos made of them. *)
From Coq Require Import List ZArith Bool Reals Lia Lra.
From Verif Require Import Base Flt Num Utility_Model Utility_Spec Extrema_Model Virtual_Model Photo_Model Photo_Spec Input_Model Input_Spec Input_Proofs.
From Verif Require Import View_Model View_Spec ViewAxis_Proofs LinAlg_Model Maths_Model Maths_Spec Spheroid_Spec.
Import ListNotations.
Open Scope Z_scope.

(** C94: of an image of at most two axes and fewer than 2^63 pixels, [read] gives
    exactly the pixels, line by line, blank ones as NaN; it does so if and only
    if there are two axes of at least two pixels each and no call fails. *)
Theorem C94_read : forall {A} (nan : acar A) (f : fits_image A) img s l, flat_image f ->
  read_image nan f = Ok (img, s, l) <->
  fi_param_status f = 0 /\ fi_read_status f = 0 /\ fi_axes f = [s; l] /\ 2 <= s /\ 2 <= l /\ fi_alloc f (s * l) = None /\
  shows nan f s l img.
Proof. exact @read_image_iff. Qed.
Print Assumptions C94_read.
Example C94_read_case :
  read_image (A := ar_num) NaN (numbered [3; 2]) = Ok ([Num 11; Num 21; NaN; Num 12; Num 22; Num 32], 3, 2) /\
  read_image (A := ar_num) NaN (numbered [3; 1]) = Throw runtime_error.
Proof. split; reflexivity. Qed.

(** C94: reading such an image has a defined outcome, whatever CFITSIO answers. *)
Theorem C94_defined : forall {A} (nan : acar A) (f : fits_image A) u, flat_image f -> read_image nan f <> UB u.
Proof. exact @read_image_defined. Qed.
Print Assumptions C94_defined.
Example C94_defined_case :
  read_image (A := ar_num) NaN (FitsImage (A := ar_num) [3; 2] (fun _ => None) 0 104 (fun _ => None)) = Throw runtime_error /\
  read_image (A := ar_num) NaN (FitsImage (A := ar_num) [3; 2] (fun _ => None) 0 0 (fun _ => Some bad_alloc)) = Throw bad_alloc.
Proof. split; reflexivity. Qed.

(** C94 fails otherwise: every image of three or more axes that gets as far as
    reading is read past the end of the array of first pixels, and the number of
    pixels overflows. *)
Theorem C94_refuted :
  (forall {A} (nan : acar A) (f : fits_image A) n0 n1 n2 r, fi_axes f = n0 :: n1 :: n2 :: r ->
     fi_param_status f = 0 -> 2 <= n0 -> 2 <= n1 -> n0 * n1 < 2 ^ 63 -> fi_alloc f (n0 * n1) = None ->
     read_image nan f = UB ub_access) /\
  (forall {A} (nan : acar A) (f : fits_image A) n0 n1 r, fi_axes f = n0 :: n1 :: r ->
     fi_param_status f = 0 -> 2 <= n0 -> 2 <= n1 -> 2 ^ 63 <= n0 * n1 -> read_image nan f = UB ub_overflow).
Proof. exact read_image_refuted. Qed.
Print Assumptions C94_refuted.
Example C94_refuted_case :
  read_image (A := ar_num) NaN (numbered [3; 2; 1]) = UB ub_access /\
  read_image (A := ar_num) NaN (numbered [2 ^ 32; 2 ^ 31]) = UB ub_overflow.
Proof. split; reflexivity. Qed.

(** C95: a photo made from such files holds the image of the file, turned and
    less the flat field as asked for; the flat field has the same size; a second
    photo is not made from the same source. *)
Theorem C95_photo : forall {A P} (nan : acar A) (f f' : photo_source A P) p,
  flat_source f -> photo_make nan f = Ok (Some p, f') ->
  exists s l n sky g ready,
    fi_axes (ff_image (ps_file f)) = [s; l] /\ 2 <= s /\ 2 <= l /\ s * l < 2 ^ 63 /\
    ps_config f = Some (n, sky) /\ ps_geometry f = Some g /\ rg_ready g (ps_geometric_correction f) s l = Ok ready /\
    (sky = true -> rg_mask g (ps_geometric_correction f) s l = Ok tt) /\
    (forall d, ps_flat_field f = Some d -> fi_axes (ff_image d) = [s; l]) /\
    Z.of_nat (length (ph_image p)) = s * l /\
    (forall k i, (k < Z.to_nat l)%nat -> (i < Z.to_nat s)%nat ->
       pixel (ph_image p) (Z.to_nat s) k i = Some (photo_value nan f s l (Z.of_nat i) (Z.of_nat k))) /\
    photo_new (ph_image p) s l
      (Some (Config n sky (if ps_interpolate f then interpolate (bilinear_new s l n) else null_interpolation) Photo_Model.null_correction))
      (Some ready) = Ok p /\
    photo_make nan f' = Ok (None, f').
Proof. exact @photo_made. Qed.
Print Assumptions C95_photo.
(** A source with a flat field, turned left to right; the position of pixel
    (1, 0) at every point. *)
Definition ones : fits_file ar_num :=
  FitsFile (A := ar_num) 0 (FitsImage (A := ar_num) [3; 2] (fun c => Some (Num (match c with [2; _] => 1 | _ => 0 end))) 0 0 (fun _ => None)) key_absent key_absent.
Definition a_source (flat : option (fits_file ar_num)) : photo_source ar_num unit :=
  PhotoSource (A := ar_num) (a_file [3; 2]) flat false false false true (Some (Nibbles 0 0 0 0, false))
    (Some (RawGeometry (A := ar_num) (fun _ _ _ => Ok (Geometry (A := ar_num) (fun _ => (true, Num 2, Num 1)) (fun _ _ => [])))
             (fun _ _ _ => Ok tt))) ex_empty.
Example C95_photo_case : exists p f',
  photo_make (A := ar_num) NaN (a_source (Some ones)) = Ok (Some p, f') /\ flat_source (A := ar_num) (a_source (Some ones)) /\
  ph_image p = [NaN; Num (21 - 1); Num (11 - 0); Num (32 - 0); Num (22 - 1); Num (12 - 0)] /\
  photo_make (A := ar_num) NaN (a_source (Some (a_file [2; 2]))) = Throw runtime_error.
Proof.
  do 2 eexists. split; [reflexivity |]. split; [| split; reflexivity].
  split; [split; [cbn; lia | intros ? ? [= <- <-]; reflexivity] |].
  intros d [= <-]. split; [cbn; lia | intros ? ? [= <- <-]; reflexivity].
Qed.

(** C95: the limits of the photo are those the user gave, or else DATAMIN and
    DATAMAX of the source; a keyword that cannot be read, or a flat field that
    cannot be opened, gives no photo. *)
Theorem C95_limits : forall {A P} (nan : acar A) (f f' : photo_source A P) p, photo_make nan f = Ok (Some p, f') ->
  ff_datamin (ps_file f) <> key_error /\ ff_datamax (ps_file f) <> key_error /\
  (forall d, ps_flat_field f = Some d -> ff_open_status d = 0) /\
  e_min (ps_limits f') = first_given (e_min (ps_limits f)) (ff_datamin (ps_file f)) /\
  e_max (ps_limits f') = first_given (e_max (ps_limits f)) (ff_datamax (ps_file f)).
Proof. exact @photo_limits. Qed.
Print Assumptions C95_limits.
Definition with_keys (lo hi : keyword) : photo_source ar_num unit :=
  PhotoSource (A := ar_num) (FitsFile (A := ar_num) 0 (numbered [3; 2]) lo hi) None false false false true (Some (Nibbles 0 0 0 0, false))
    (ps_geometry (a_source None)) (Extrema (T := ct F64) None (Some (double_of_Z 9))).
Example C95_limits_case :
  (exists p f', photo_make (A := ar_num) NaN (with_keys (key_value (double_of_Z 2)) (key_value (double_of_Z 7))) = Ok (Some p, f') /\
     ps_limits f' = Extrema (T := ct F64) (Some (double_of_Z 2)) (Some (double_of_Z 9))) /\
  photo_make (A := ar_num) NaN (with_keys key_error key_absent) = Throw runtime_error.
Proof. split; [do 2 eexists; split|]; reflexivity. Qed.

(** C95: a source that cannot be opened is refused at once. *)
Theorem C95_unopened : forall {A P} (d : fits_file A), ff_open_status d <> 0 -> photo_source_new (P := P) d = Throw runtime_error.
Proof. exact @unopened. Qed.
Print Assumptions C95_unopened.
Example C95_unopened_case :
  photo_source_new (A := ar_num) (P := unit) (FitsFile (A := ar_num) 104 (numbered [3; 2]) key_absent key_absent) = Throw runtime_error.
Proof. reflexivity. Qed.

(** C95: without interpolation and sky removal, a point has a value if and only
    if it is seen at a pixel inside the nibbles whose value is not NaN, and the
    value is that of the file at that pixel, turned and less the flat field. *)
Theorem C95_answers_partial : forall {A P} (nan : acar A) (f f' : photo_source A P) p,
  flat_source f -> photo_make nan f = Ok (Some p, f') ->
  exists s l n sky g ready, fi_axes (ff_image (ps_file f)) = [s; l] /\ ps_config f = Some (n, sky) /\
    ps_geometry f = Some g /\ rg_ready g (ps_geometric_correction f) s l = Ok ready /\
    (sky = false -> ps_interpolate f = false -> size_nibbles n -> n_right n <= s -> n_bottom n <= l ->
     forall pt data w, a_isnan A data = false ->
     answer_of (photo_read p pt data) = Ok (Some w) <->
     exists x z i k, g_pix ready pt = (true, x, z) /\ a_lt A x (a_of_Z A 0) = false /\ a_lt A z (a_of_Z A 0) = false /\
       a_size A x = Ok i /\ a_size A z = Ok k /\ in_window n s l i k /\
       w = photo_value nan f s l i k /\ a_isnan A w = false).
Proof. exact @photo_answers. Qed.
Print Assumptions C95_answers_partial.
Example C95_answers_case : exists p f',
  photo_make (A := ar_num) NaN (a_source None) = Ok (Some p, f') /\
  answer_of (photo_read p tt (Num 5)) = Ok (Some (Num 12)).
Proof.
  do 2 eexists. split; [reflexivity |].
  assert (E : forall pp ff, photo_make (A := ar_num) NaN (a_source None) = Ok (Some pp, ff) ->
    answer_of (photo_read pp tt (Num 5)) = Ok (Some (Num 12))).
  { intros pp ff M.
    assert (F : flat_source (A := ar_num) (a_source None)).
    { split; [split; [cbn; lia | intros ? ? [= <- <-]; reflexivity] | discriminate]. }
    destruct (photo_answers (A := ar_num) NaN _ _ _ F M) as (s & l & n & sky & g & ready & [= <- <-] & [= <- <-] & [= <-] & [= <-] & H).
    apply H; try reflexivity; try (cbn; lia).
    { unfold size_nibbles, is_size; cbn; unfold size_mod; lia. }
    destruct (size_position 2 2) as [X1 X2]; [unfold size_mod; lia | lra |].
    destruct (size_position 1 1) as [Z1 Z2]; [unfold size_mod; lia | lra |].
    exists (Num 2), (Num 1), 2, 1. repeat (split; [first [reflexivity | assumption] |]).
    split; [unfold in_window; cbn; lia |]. split; reflexivity. }
  eapply E. reflexivity.
Qed.

(** C95, over the reals with the view of a prograde body whose centre is given:
    the value of a point is that of the pixel through which it is seen.  The
    line of sight through its position in the image meets the body there. *)
Theorem C95_sees_partial : forall (other : geometry ar_num (R * R)) (f f' : photo_source ar_num (R * R)) p
    eq pol g term s l n sub_lat sub_lon range kpp os ol sc lc pa m,
  flat_source (A := ar_num) f -> photo_make (A := ar_num) NaN f = Ok (Some p, f') -> fi_axes (ff_image (ps_file f)) = [s; l] ->
  ps_config f = Some (n, false) -> ps_interpolate f = false -> ps_geometric_correction f = false ->
  size_nibbles n -> (n_right n <= s)%Z -> (n_bottom n <= l)%Z ->
  ps_geometry f = Some (raw_view other true eq pol g term) ->
  center_given eq pol g s l sub_lat sub_lon range kpp os ol sc lc pa ->
  (offset kpp os ol sc lc <= range * cos sub_lat)%R ->
  (eq * eq + offset kpp os ol sc lc * offset kpp os ol sc lc < range * range)%R ->
  g mu_limit_ = Num m -> (0 <= m)%R ->
  exists v, finalize_setup true eq pol g term null_correction s l = Ok (Some v) /\
  forall lat lon d w, (- (PI / 2) <= lat <= PI / 2)%R ->
  answer_of (photo_read p (lat, lon) (Num d)) = Ok (Some w) <->
  is_visible v lat lon = true /\ w <> NaN /\
  exists x z i k lon', in_window n s l i k /\ w = photo_value (A := ar_num) NaN f s l i k /\
    (IZR i <= x < IZR i + 1)%R /\ (IZR k <= z < IZR k + 1)%R /\ latlon2pix v lat lon = Some (Num x, Num z) /\
    pix2latlon v x z = Ok (Some (Num lat, lon')) /\ (cos lat <> 0%R -> same_angle lon' lon).
Proof. exact photo_sees. Qed.
Print Assumptions C95_sees_partial.
(** The unit sphere seen from the direction of latitude and longitude 0, with its
    centre at pixel (1, 1): that point has the value of this pixel. *)
Example C95_sees_case : forall other, exists p f',
  photo_make (A := ar_num) NaN
    (PhotoSource (A := ar_num) (P := (R * R)%type) (a_file [3; 2]) None false false false false (Some (Nibbles 0 0 0 0, false))
       (Some (raw_view other true 1 1 (unit_geom 0 0 1 1 1 1) false)) ex_empty) = Ok (Some p, f') /\
  answer_of (photo_read p (0%R, 0%R) (Num 5)) = Ok (Some (Num 22)).
Proof. exact unit_photo. Qed.
