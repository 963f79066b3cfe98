(** Property theorems C21-C28: photo images. *)
From Coq Require Import List ZArith Reals Lra Lia.
From Verif Require Import Base Num Utility_Spec Photo_Model Photo_Spec Photo_Proofs PhotoReal_Proofs.
Import ListNotations.
Open Scope Z_scope.

(** C21 for non-NaN prior contents.  Missing: a NaN there, refuted below. *)
Theorem C21_prior_content_partial :
  forall (A : arith) P (p : photo A P) pt data data',
  a_isnan A data = false -> a_isnan A data' = false ->
  answer_of (photo_read p pt data) = answer_of (photo_read p pt data').
Proof. exact @read_prior_content. Qed.
Print Assumptions C21_prior_content_partial.

(** With NaN in the caller's variable no photo image ever has data. *)
Theorem C21_prior_content_refuted :
  (forall (A : arith) P (p : photo A P) pt data, a_isnan A data = true ->
     forall v, answer_of (photo_read p pt data) <> Ok (Some v)) /\
  (forall v d, d <> NaN -> v <> NaN ->
     exists p, photo_at (flat_image v 4) 2 2 1 1 (plain false null_interpolation) = Ok p /\
       photo_read p tt d = Ok (true, v)).
Proof. exact (conj (fun A P => @read_nan_prior A P) read_null_2x2). Qed.
Print Assumptions C21_prior_content_refuted.

Example C21_case :
  exists p, photo_at (flat_image (Num 7) 4) 2 2 1 1 (plain false null_interpolation) = Ok p /\
    answer_of (photo_read p tt (Num 100)) = Ok (Some (Num 7)).
Proof.
  destruct (read_null_2x2 (Num 7) (Num 100)) as (p & E & R); [discriminate..|].
  exists p. split; [exact E|]. now rewrite R.
Qed.

(** C22 for nibbles not exceeding the image ([built]): no read is outside the
    image or mask, and a successful read used a pixel inside the window. *)
Theorem C22_reads_inside_partial :
  forall (A : arith) P img samples lines c g (p : photo A P) pt scan data weight,
  built img samples lines c g p -> pixel_position g pt ->
  exists ok v w, photo_read_w p pt scan data weight = Ok (ok, v, w) /\
    (ok = true -> exists x z i k, g_pix g pt = (true, x, z) /\
       a_size A x = Ok i /\ a_size A z = Ok k /\ in_window (c_nibbles c) samples lines i k).
Proof. exact @read_safe. Qed.
Print Assumptions C22_reads_inside_partial.

(** C22 is false for larger nibbles: NIBBLE_RIGHT 3 on a 2x2 image is accepted
    and the image is read beyond its end. *)
Theorem C22_reads_inside_refuted :
  exists p : photo ar_num unit,
    photo_new (A := ar_num) (flat_image (Num 1) 4) 2 2
      (Some (Config (Nibbles 0 3 0 0) false null_interpolation null_correction)) (Some (fixed_geometry 5 1)) = Ok p /\
    photo_read p tt (Num 0) = UB ub_access.
Proof. exact wide_nibble_reads_outside. Qed.
Print Assumptions C22_reads_inside_refuted.

Example C22_case :
  exists p, built (A := ar_num) (flat_image (Num 7) 9) 3 3 (plain true (interpolate (bilinear_new 3 3 no_nibbles)))
              (fixed_geometry 1 1) p /\ pixel_position (fixed_geometry 1 1) tt.
Proof.
  eexists. split; [|apply fixed_position; unfold size_mod; lia].
  constructor.
  - reflexivity.
  - reflexivity.
  - repeat split; cbn; lia.
  - cbn; lia.
  - cbn; lia.
  - right. reflexivity.
  - intros _. reflexivity.
Qed.

(** C23. *)
Theorem C23_success_not_nan :
  forall (A : arith) P img samples lines c g (p : photo A P) pt scan data weight v w,
  built img samples lines c g p -> pixel_position g pt ->
  photo_read_w p pt scan data weight = Ok (true, v, w) ->
  a_isnan A v = false /\
  exists x z, g_pix g pt = (true, x, z) /\
    a_lt A x (a_of_Z A 0) = false /\ a_lt A z (a_of_Z A 0) = false.
Proof. exact @read_success. Qed.
Print Assumptions C23_success_not_nan.

Example C23_case :
  exists p, photo_at (flat_image NaN 4) 2 2 1 1 (plain false null_interpolation) = Ok p /\
    photo_read p tt (Num 0) = Ok (false, NaN).
Proof. apply read_nan_pixel. discriminate. Qed.

(** C24: without sky removal the weight is the distance to the nearest edge.
    Missing: sky removal, where the weight is zero for EVERY pixel read. *)
Theorem C24_weight_partial :
  forall (A : arith) P img samples lines c g (p : photo A P) pt data weight v w,
  built img samples lines c g p -> pixel_position g pt ->
  photo_read_w p pt true data weight = Ok (true, v, w) ->
  exists x z i k, g_pix g pt = (true, x, z) /\ a_size A x = Ok i /\ a_size A z = Ok k /\
    (c_remove_sky c = false ->
       w = a_of_Z A (Z.min (Z.min i (samples - i)) (Z.min k (lines - k)))) /\
    (c_remove_sky c = true -> w = a_of_Z A 0).
Proof. exact @read_weight. Qed.
Print Assumptions C24_weight_partial.

(** C24 refuted: the centre of a 5x5 image full of body has weight 0. *)
Theorem C24_weight_refuted : forall v d w, d <> NaN -> v <> NaN ->
  exists p, photo_at (flat_image v 25) 5 5 2 2 (plain true null_interpolation) = Ok p /\
    photo_read_w p tt true d w = Ok (true, v, Num 0).
Proof. exact read_sky_5x5. Qed.
Print Assumptions C24_weight_refuted.

Example C24_case :
  exists p, photo_at (flat_image (Num 7) 25) 5 5 2 3 (plain false null_interpolation) = Ok p /\
    data_weight p 2 3 = Ok 2.
Proof. eexists. split; reflexivity. Qed.

(** C25 when the right and top nibbles do not exceed the image. *)
Theorem C25_nibbles_partial : forall n samples lines,
  is_size samples -> is_size lines -> size_nibbles n ->
  n_right n <= samples -> n_top n <= lines ->
  validate_parameters n samples lines =
  if ((samples <=? n_left n + n_right n) || (lines <=? n_top n + n_bottom n))%bool
  then Throw invalid_argument else Ok tt.
Proof. exact validate_ok. Qed.
Print Assumptions C25_nibbles_partial.

(** C25 is false for larger ones: the subtraction wraps round. *)
Theorem C25_nibbles_refuted :
  validate_parameters (Nibbles 0 11 0 0) 10 10 = Ok tt /\
  validate_parameters (Nibbles 0 0 11 0) 10 10 = Ok tt.
Proof. exact (conj eq_refl eq_refl). Qed.
Print Assumptions C25_nibbles_refuted.

Example C25_case :
  validate_parameters (Nibbles 4 6 0 0) 10 10 = Throw invalid_argument /\
  validate_parameters (Nibbles 4 5 3 6) 10 10 = Ok tt.
Proof. split; reflexivity. Qed.

(** C26: interpolation succeeds only inside the window and with a usable pair
    of pixels, never uses NaN and preserves a common value; outside the window
    or without a usable pair it fails and leaves the datum. *)
Theorem C26_interpolation :
  forall (c : bilinear) (img : list ar_num) x z datum l b,
  window_ok c (Z.of_nat (length img)) ->
  num_size (Num x) = Ok l -> num_size (Num z) = Ok b -> l + 1 < size_mod -> b + 1 < size_mod ->
  (~ inside c l b /\ interpolate (A := ar_num) c img (Num x) (Num z) datum = Ok (false, datum)) \/
  (inside c l b /\ exists q, quad_of img (bl_samples c) l b q /\
     ((~ usable q /\ interpolate (A := ar_num) c img (Num x) (Num z) datum = Ok (false, datum)) \/
      (usable q /\ exists v, interpolate (A := ar_num) c img (Num x) (Num z) datum = Ok (true, Num v) /\
         (forall u, common_value q u -> v = u) /\
         (forall bl br tl tr, q = Quad (Num bl) (Num br) (Num tl) (Num tr) ->
            v = (((br - bl) * (x - IZR l) + bl + ((br - bl) * (z - IZR b) + br)
                 + ((tr - tl) * (x - IZR l) + tl) + ((tl - bl) * (z - IZR b) + bl)) / 4)%R)))).
Proof. exact interpolate_real. Qed.
Print Assumptions C26_interpolation.

(** Only the four pixels matter, in any arithmetic. *)
Theorem C26_four_pixels :
  forall (A : arith) (c : bilinear) (img img' : list A) x z datum l b,
  window_ok c (Z.of_nat (length img)) -> length img' = length img ->
  a_size A x = Ok l -> a_size A z = Ok b -> 0 <= l -> 0 <= b ->
  l + 1 < size_mod -> b + 1 < size_mod ->
  (forall i k, (i = l \/ i = l + 1) -> (k = b \/ k = b + 1) ->
     znth img (k * bl_samples c + i) = znth img' (k * bl_samples c + i)) ->
  interpolate c img x z datum = interpolate c img' x z datum.
Proof. exact @interpolate_local. Qed.
Print Assumptions C26_four_pixels.

Example C26_case :
  let c := bilinear_new 3 3 no_nibbles in
  let img := [NaN; Num 1; Num 5; NaN; Num 1; Num 5; NaN; NaN; NaN] in
  window_ok c (Z.of_nat (length img)) /\ inside c 0 0 /\
  quad_of img 3 0 0 (Quad NaN (Num 1) NaN (Num 1)) /\ ~ usable (Quad NaN (Num 1) NaN (Num 1)) /\
  quad_of img 3 1 0 (Quad (Num 1) (Num 5) (Num 1) (Num 5)) /\ usable (Quad (Num 1) (Num 5) (Num 1) (Num 5)).
Proof.
  cbn. repeat split; try (cbn; lia); try (unfold usable; cbn; intuition congruence).
Qed.

(** C27 when the position is on a line of pixels or the bottom pixels agree.
    Missing: other positions, refuted below. *)
Theorem C27_between_partial : forall bl br tl tr fx fz,
  (0 <= fx <= 1 -> 0 <= fz <= 1 -> (fz = 0 \/ bl = br) ->
  min4 bl br tl tr <=
    ((br - bl) * fx + bl + ((br - bl) * fz + br) + ((tr - tl) * fx + tl) + ((tl - bl) * fz + bl)) / 4
  <= max4 bl br tl tr)%R.
Proof. exact interpolated_between. Qed.
Print Assumptions C27_between_partial.

(** At a pixel position the result is (2 bl + br + tl) / 4 instead of bl. *)
Theorem C27_at_pixel_refuted :
  forall (c : bilinear) (img : list ar_num) l b bl br tl tr datum,
  window_ok c (Z.of_nat (length img)) -> inside c l b -> 0 <= l -> 0 <= b ->
  quad_of img (bl_samples c) l b (Quad (Num bl) (Num br) (Num tl) (Num tr)) ->
  l + 1 < size_mod -> b + 1 < size_mod ->
  interpolate (A := ar_num) c img (Num (IZR l)) (Num (IZR b)) datum =
    Ok (true, Num ((2 * bl + br + tl) / 4)%R).
Proof. exact interpolate_at_pixel. Qed.
Print Assumptions C27_at_pixel_refuted.

(** Values above all four pixels: pixels 0, 1, 1, 1 give 1.175. *)
Theorem C27_between_refuted :
  exists v, interpolate (A := ar_num) (bilinear_new 3 3 no_nibbles)
              [Num 0; Num 1; Num 0; Num 1; Num 1; Num 0; Num 0; Num 0; Num 0]
              (Num (9 / 10)) (Num (9 / 10)) (Num 0) = Ok (true, Num v) /\
    (max4 0 1 1 1 < v)%R.
Proof. exact interpolation_overshoots. Qed.
Print Assumptions C27_between_refuted.

Example C27_case :
  (min4 0 8 4 4 <= ((8 - 0) * (1/2) + 0 + ((8 - 0) * 0 + 8) + ((4 - 4) * (1/2) + 4) + ((4 - 0) * 0 + 0)) / 4
   <= max4 0 8 4 4)%R.
Proof. apply interpolated_between; lra. Qed.

(** C28: image data as prepared for a photo image.  With a flat field of the
    size of the image, pixels are the differences, mirrored as requested. *)
Theorem C28_flat_field : forall (A : arith) (flat : option (list A * Z * Z)) h v img samples lines,
  fits samples lines -> Z.of_nat (length img) = (samples * lines)%Z ->
  (forall f fs fl, flat = Some (f, fs, fl) -> fs = samples /\ fl = lines /\ length f = length img) ->
  exists img', prepare flat h v img samples lines = Ok img' /\ length img' = length img /\
    forall k i, (k < Z.to_nat lines)%nat -> (i < Z.to_nat samples)%nat ->
      pixel img' (Z.to_nat samples) k i =
      flat_pixel flat (Z.to_nat samples) (if v then Z.to_nat lines - 1 - k else k)%nat
        (if h then Z.to_nat samples - 1 - i else i)%nat img.
Proof. exact @prepare_ok. Qed.
Print Assumptions C28_flat_field.

Theorem C28_flat_field_mismatch :
  forall (A : arith) (f : list A) fs fl img samples lines h v,
  fs <> samples \/ fl <> lines ->
  prepare (A := A) (Some (f, fs, fl)) h v img samples lines = Throw runtime_error.
Proof. exact @flat_field_mismatch. Qed.
Print Assumptions C28_flat_field_mismatch.

Example C28_case :
  prepare (A := ar_num) (Some ([Num 1; Num 1; Num 2; Num 2], 2, 2)) true false
    [Num 5; Num 6; Num 7; Num 8] 2 2 = Ok [Num (6 - 1); Num (5 - 1); Num (8 - 2); Num (7 - 2)].
Proof. reflexivity. Qed.
