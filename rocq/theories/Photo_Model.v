(** Compositing strategies (lib/marc/first_read.cpp, unweighted_average.cpp,
    weighted_average.cpp, MosaicImage.cpp) and photo images
    (lib/marc/PhotoImage.cpp, PhotoImageParameters.cpp,
    BilinearInterpolation.cpp, NullInterpolation.cpp,
    NullPhotometricCorrection.cpp, src/PhotoImageFactory.cpp data path). *)
From Coq Require Import List ZArith Bool.
From Verif Require Import Base Num Utility_Model.
Import ListNotations.
Open Scope Z_scope.

(** Element access; outside the sequence the caller reports [ub_access]. *)
Definition znth {B} (l : list B) (i : Z) : option B :=
  if i <? 0 then None else nth_error l (Z.to_nat i).
Definition access {B} (l : list B) (i : Z) : outcome B :=
  match znth l i with Some b => Ok b | None => UB ub_access end.

(** The type [long double] beside [double]: its arithmetic and the conversions.
    Over the reals both are the same. *)
Record wide (A : arith) := Wide { w_arith : arith; w_widen : A -> w_arith; w_narrow : w_arith -> A }.
Arguments Wide {A}.
Arguments w_arith {A}.
Arguments w_widen {A}.
Arguments w_narrow {A}.
Definition as_wide (A : arith) : wide A := Wide A (fun x => x) (fun x => x).

Section Composite.
Context {A : arith}.

(** [SourceImage::read_data(lat, lon, data)] at a fixed point: incoming value
    of [data] to success flag and outgoing value. *)
Definition image := A -> outcome (bool * A).

(** [SourceImage::read_data(lat, lon, data, weight, scan = true)]. *)
Definition wimage := A -> A -> outcome (bool * A * A).

(** lib/marc/SourceImage.cpp:14-22: by default the weight is untouched. *)
Definition unweighted (im : image) : wimage := fun data weight =>
  bind (im data) (fun r => Ok (fst r, snd r, weight)).

(** lib/marc/first_read.cpp:14-26. *)
Fixpoint first_read (images : list image) (data : A) : outcome (Z * A) :=
  match images with
  | [] => Ok (0, data)
  | i :: rest =>
      bind (i data) (fun r =>
      let (ok, data') := r in
      if ok then Ok (1, data') else first_read rest data')
  end.

(** Loop of lib/marc/unweighted_average.cpp:47-52.  [int count] does not wrap. *)
Fixpoint sum_loop (W : wide A) (images : list image) (data : A) (sum : w_arith W) (count : Z) : outcome (A * w_arith W * Z) :=
  match images with
  | [] => Ok (data, sum, count)
  | i :: rest =>
      bind (i data) (fun r =>
      let (ok, data') := r in
      if ok then sum_loop W rest data' (a_add (w_arith W) sum (w_widen W data')) (count + 1)
      else sum_loop W rest data' sum count)
  end.

(** lib/marc/unweighted_average.cpp:14-66. *)
Definition unweighted_average (W : wide A) (images : list image) (data : A) : outcome (Z * A) :=
  bind (sum_loop W images data (a_of_Z (w_arith W) 0) 0) (fun r =>
  let '(data', sum, count) := r in
  Ok (count, if 1 <? count then w_narrow W (a_div (w_arith W) sum (a_of_Z (w_arith W) count)) else data')).

(** Loop of lib/marc/weighted_average.cpp:29-41; the product is a [double]. *)
Fixpoint wsum_loop (W : wide A) (images : list wimage) (data : A) (wsum weights : w_arith W) (count : Z)
  : outcome (A * w_arith W * w_arith W * Z) :=
  match images with
  | [] => Ok (data, wsum, weights, count)
  | i :: rest =>
      bind (i data (a_of_Z A 1)) (fun r =>
      let '(ok, data', weight) := r in
      if ok then
        wsum_loop W rest data' (a_add (w_arith W) wsum (w_widen W (a_mul A weight data')))
          (a_add (w_arith W) weights (w_widen W weight)) (count + 1)
      else wsum_loop W rest data' wsum weights count)
  end.

(** lib/marc/weighted_average.cpp:14-53. *)
Definition weighted_average (W : wide A) (images : list wimage) (data : A) : outcome (Z * A) :=
  bind (wsum_loop W images data (a_of_Z (w_arith W) 0) (a_of_Z (w_arith W) 0) 0) (fun r =>
  let '(data', wsum, weights, count) := r in
  Ok (count, if (1 <? count) && a_lt (w_arith W) (a_of_Z (w_arith W) 0) weights
             then w_narrow W (a_div (w_arith W) wsum weights) else data')).

(** lib/marc/MosaicImage.cpp:23-30. *)
Definition mosaic_read (composite : A -> outcome (Z * A)) : image := fun data =>
  bind (composite data) (fun r => Ok (0 <? fst r, snd r)).

End Composite.
Arguments image A : clear implicits.
Arguments wimage A : clear implicits.

(** Nibble values, lib/marc/PhotoImageParameters.h (std::size_t each). *)
Record nibbles := Nibbles { n_left : Z; n_right : Z; n_top : Z; n_bottom : Z }.

(** [validate_parameters], lib/marc/PhotoImageParameters.cpp:136-154. *)
Definition validate_parameters (n : nibbles) (samples lines : Z) : outcome unit :=
  if wrap (samples - n_right n) <=? n_left n then Throw invalid_argument
  else if wrap (lines - n_top n) <=? n_bottom n then Throw invalid_argument
  else Ok tt.

Section Photo.
Context {A : arith} {P : Type}.

(** [InterpolationStrategy::interpolate(data, x, z, datum)]. *)
Definition interp := list A -> A -> A -> A -> outcome (bool * A).

(** lib/marc/NullInterpolation.cpp:14-21. *)
Definition null_interpolation : interp := fun _ _ _ datum => Ok (true, datum).

(** lib/marc/BilinearInterpolation.cpp:16-30. *)
Record bilinear := Bilinear {
  bl_samples : Z; bl_left : Z; bl_right : Z; bl_top : Z; bl_bottom : Z }.
Definition bilinear_new (samples lines : Z) (n : nibbles) : bilinear :=
  Bilinear samples (n_left n) (wrap (samples - n_right n)) (n_top n) (wrap (lines - n_bottom n)).

(** lib/marc/BilinearInterpolation.cpp:32-91.  All four pixels are read before
    they are tested; the code reads them inside && chains and may skip some. *)
Definition interpolate (c : bilinear) : interp := fun data x z datum =>
  bind (a_size A x) (fun l =>
  let r := wrap (l + 1) in
  bind (a_size A z) (fun b =>
  let t := wrap (b + 1) in
  let ob := wrap (b * bl_samples c) in
  let ot := wrap (t * bl_samples c) in
  if (l <? bl_left c) || (bl_right c <=? r) || (b <? bl_top c) || (bl_bottom c <=? t)
  then Ok (false, datum)
  else
    bind (access data (wrap (ob + r))) (fun br =>
    bind (access data (wrap (ob + l))) (fun bl =>
    bind (access data (wrap (ot + r))) (fun tr =>
    bind (access data (wrap (ot + l))) (fun tl =>
    let fx := a_sub A x (a_of_Z A l) in
    let fz := a_sub A z (a_of_Z A b) in
    let '(tmp, count) := (a_of_Z A 0, 0) in
    let '(tmp, count) :=
      if negb (a_isnan A br) && negb (a_isnan A bl) then
        let tmp := a_add A tmp (a_add A (a_mul A (a_sub A br bl) fx) bl) in
        let tmp := a_add A tmp (a_add A (a_mul A (a_sub A br bl) fz) br) in
        (tmp, count + 2)
      else (tmp, count) in
    let '(tmp, count) :=
      if negb (a_isnan A tr) && negb (a_isnan A tl) then
        (a_add A tmp (a_add A (a_mul A (a_sub A tr tl) fx) tl), count + 1)
      else (tmp, count) in
    let '(tmp, count) :=
      if negb (a_isnan A tl) && negb (a_isnan A bl) then
        (a_add A tmp (a_add A (a_mul A (a_sub A tl bl) fz) bl), count + 1)
      else (tmp, count) in
    if 0 <? count then Ok (true, a_div A tmp (a_of_Z A count)) else Ok (false, datum))))))).

(** Photometric correction as used by read_data; the geometry argument is
    fixed.  lib/marc/NullPhotometricCorrection.cpp:14-19 always succeeds. *)
Definition correction := A -> bool * A.
Definition null_correction : correction := fun data => (true, data).

(** What PhotoImage uses of ViewingGeometry: latlon2pix and body_mask. *)
Record geometry := Geometry {
  g_pix : P -> bool * A * A;
  g_mask : Z -> Z -> list bool }.

(** What PhotoImage uses of PhotoImageParameters. *)
Record config := Config {
  c_nibbles : nibbles; c_remove_sky : bool; c_interp : interp; c_correct : correction }.

Record photo := Photo {
  ph_image : list A; ph_samples : Z; ph_lines : Z;
  ph_left : Z; ph_right : Z; ph_top : Z; ph_bottom : Z;
  ph_config : config; ph_geometry : geometry; ph_mask : list bool }.

(** Constructor, lib/marc/PhotoImage.cpp:31-95.  A null configuration is
    dereferenced (line 58) before it is checked (line 36). *)
Definition photo_new (img : list A) (samples lines : Z) (c : option config)
    (g : option geometry) : outcome photo :=
  match c with
  | None => UB ub_null
  | Some c =>
    let n := c_nibbles c in
    match g with
    | None => Throw invalid_argument
    | Some g =>
      let mask := if c_remove_sky c then g_mask g samples lines else [] in
      if (samples <? 2) || (lines <? 2) then Throw invalid_argument
      else if negb (Z.of_nat (length img) =? wrap (samples * lines)) then Throw invalid_argument
      else bind (validate_parameters n samples lines) (fun _ =>
        Ok (Photo img samples lines
              (n_left n) (wrap (samples - n_right n)) (n_top n) (wrap (lines - n_bottom n))
              c g mask))
    end
  end.

(** [std::find] of [target] in [n] mask elements from [pos] with [stride];
    the distance counted in strides. *)
Fixpoint scan (mask : list bool) (pos stride : Z) (n : nat) (target : bool) (j : Z)
  : outcome (option Z) :=
  match n with
  | O => Ok None
  | S n' => bind (access mask pos) (fun b =>
      if Bool.eqb b target then Ok (Some j)
      else scan mask (pos + stride) stride n' target (j + 1))
  end.

Definition min_weight (found : option Z) (weight : Z) : Z :=
  match found with Some d => Z.min d weight | None => weight end.

(** [scan_samples], lib/marc/PhotoImage.cpp:172-199: std::find for [true].
    The weight is kept as an integer (exact in [double] below 2^53).  An
    inverted range is undefined. *)
Definition scan_samples (p : photo) (line left right weight : Z) : outcome Z :=
  if right <? left then UB ub_access
  else bind (scan (ph_mask p) (wrap (line * ph_samples p) + left) 1
               (Z.to_nat (right - left)) true 0) (fun f => Ok (min_weight f weight)).

(** [scan_lines], lib/marc/PhotoImage.cpp:201-225: stops at the first [false].
    (Advancing the iterator past the mask without reading is not reported.) *)
Definition scan_lines (p : photo) (i top bottom weight : Z) : outcome Z :=
  bind (scan (ph_mask p) (wrap (top * ph_samples p) + i) (ph_samples p)
          (Z.to_nat (bottom - top)) false 0) (fun f => Ok (min_weight f weight)).

(** [data_weight], lib/marc/PhotoImage.cpp:227-281. *)
Definition data_weight (p : photo) (i k : Z) : outcome Z :=
  let weight := Z.min i (Z.min (wrap (ph_samples p - i)) (Z.min k (wrap (ph_lines p - k)))) in
  match ph_mask p with
  | [] => Ok weight
  | _ =>
    bind (scan_samples p k (ph_left p) i weight) (fun weight =>
    bind (scan_samples p k i (ph_right p) weight) (fun weight =>
    bind (scan_lines p i (ph_top p) k weight) (fun weight =>
    scan_lines p i k (ph_bottom p) weight)))
  end.

(** [read_data] with weight, lib/marc/PhotoImage.cpp:107-170. *)
Definition photo_read_w (p : photo) (pt : P) (scan : bool) : wimage A := fun data weight =>
  let '(visible, x, z) := g_pix (ph_geometry p) pt in
  if negb visible || a_lt A x (a_of_Z A 0) || a_lt A z (a_of_Z A 0) then Ok (false, data, weight)
  else
    bind (a_size A x) (fun i =>          (* floor(x) = trunc(x) for x >= 0 *)
    bind (a_size A z) (fun k =>
    let index := wrap (k * ph_samples p + i) in
    if (i <? ph_left p) || (ph_right p <=? i) || (k <? ph_top p) || (ph_bottom p <=? k)
    then Ok (false, data, weight)
    else
      bind (match ph_mask p with
            | [] => Ok true
            | m => access m index
            end) (fun body =>
      if negb body || a_isnan A data then Ok (false, data, weight)
      else
        bind (access (ph_image p) index) (fun data =>
        bind (c_interp (ph_config p) (ph_image p) x z data) (fun r =>
        let (ok, data) := r in
        if negb ok then Ok (false, data, weight)
        else
          let (ok, data) := c_correct (ph_config p) data in
          if negb ok || a_isnan A data then Ok (false, data, weight)
          else if scan then bind (data_weight p i k) (fun w => Ok (true, data, a_of_Z A w))
          else Ok (true, data, weight)))))).

(** [read_data], lib/marc/PhotoImage.cpp:97-105. *)
Definition photo_read (p : photo) (pt : P) : image A := fun data =>
  bind (photo_read_w p pt false data (a_of_Z A 1)) (fun r => Ok (fst r)).

End Photo.
Arguments interp A : clear implicits.
Arguments geometry A P : clear implicits.
Arguments config A : clear implicits.
Arguments photo A P : clear implicits.

Section Factory.
Context {A : arith}.

(** [flat_field_correct], src/PhotoImageFactory.cpp:191-230.  The flat field
    is absent or an image with its dimensions; a failing assert is UB. *)
Definition flat_field_correct (flat : option (list A * Z * Z)) (img : list A) (samples lines : Z)
  : outcome (list A) :=
  match flat with
  | None => Ok img
  | Some (f, fs, fl) =>
      if negb (fs =? samples) || negb (fl =? lines) then Throw runtime_error
      else if negb (length img =? length f)%nat then UB ub_assert
      else Ok (map (fun p => a_sub A (fst p) (snd p)) (combine img f))
  end.

(** The image data prepared by [make], src/PhotoImageFactory.cpp:97-111. *)
Definition prepare (flat : option (list A * Z * Z)) (invert_h invert_v : bool)
    (img : list A) (samples lines : Z) : outcome (list A) :=
  bind (flat_field_correct flat img samples lines) (fun img =>
  bind (if invert_h then invert_samples img samples lines else Ok img) (fun img =>
  if invert_v then invert_lines img samples lines else Ok img)).

End Factory.
