(** Computed map planes: [scale_and_offset] (lib/marc/scale_and_offset.h:112-119,
    lib/marc/details/scale_and_offset.h:79-218), [VirtualImage] and its five
    subclasses in lib/marc, and the factories of these planes in src. *)
From Coq Require Import List ZArith Reals Bool.
From Flocq Require Import Core BinarySingleNaN.
From Verif Require Import Base Flt Num Extrema_Model Spheroid_Model Proj_Model.
Open Scope Z_scope.

#[local] Existing Instance prec53.
#[local] Existing Instance emax53.

(** ** scale_and_offset *)

(** std::log10, and std::pow(10, k) for an integer k (the arguments are
    converted to double). *)
Record scale_libm := ScaleLibm { s_log10 : double -> double; s_pow10 : Z -> double }.

(** std::numeric_limits<T>::lowest(), max() and digits10, and the greatest
    value of std::make_unsigned_t<T>, lib/marc/details/scale_and_offset.h:84-100
    and 115, for the integral map types. *)
Definition int_limits (t : mapty) : option (Z * Z * Z * Z) :=
  match t with
  | U8 => Some (0, 255, 2, 255)
  | I16 => Some (- 2 ^ 15, 2 ^ 15 - 1, 4, 2 ^ 16 - 1)
  | I32 => Some (- 2 ^ 31, 2 ^ 31 - 1, 9, 2 ^ 32 - 1)
  | I64 => Some (- 2 ^ 63, 2 ^ 63 - 1, 18, 2 ^ 64 - 1)
  | F32 | F64 => None
  end.

(** [static_cast<int>]. *)
Definition to_int (d : double) : outcome Z := int_of_double (- 2 ^ 31) (2 ^ 31 - 1) d.

Local Notation "x +' y" := (Bplus mode_NE x y) (at level 50, left associativity).
Local Notation "x -' y" := (Bminus mode_NE x y) (at level 50, left associativity).
Local Notation "x *' y" := (Bmult mode_NE x y) (at level 40, left associativity).
Local Notation "x /' y" := (Bdiv mode_NE x y) (at level 40, left associativity).

(** The call operator for integral T, lib/marc/details/scale_and_offset.h:79-127;
    [None] is the result [false] (scale and offset are left alone).  The
    integer constants are converted to double when compared.  The difference of
    two int values cannot overflow for the results of log10. *)
Definition scale_int (L : scale_libm) (lowest highest digits10 range : Z) (min max : double)
  : outcome (option (double * double)) :=
  let data_range := max -' min in
  if negb (is_finite data_range) || flt data_range (double_of_Z 0)
     || flt (double_of_Z range) data_range
  then Ok None
  else
    bind (to_int (s_log10 L data_range)) (fun digits =>
    let scale := s_pow10 L (digits10 - digits) in
    let offset :=
      if flt (min *' scale) (double_of_Z lowest) then data_range /' double_of_Z 2 *' scale
      else if flt (double_of_Z highest) (max *' scale) then Bopp data_range /' double_of_Z 2 *' scale
      else double_of_Z 0 in
    Ok (Some (scale, offset))).

(** [MaRC::scale_and_offset<T>], lib/marc/scale_and_offset.h:112-119, with the
    float and double specialisations of
    lib/marc/details/scale_and_offset.h:146-218. *)
Definition scale_and_offset (L : scale_libm) (t : mapty) (min max : double)
  : outcome (option (double * double)) :=
  match int_limits t with
  | Some (lowest, highest, digits10, range) => scale_int L lowest highest digits10 range min max
  | None => Ok (Some (double_of_Z 1, double_of_Z 0))
  end.

(** ** VirtualImage *)
Section Virtual.
Context {A : arith}.
Local Notation Zc := (a_of_Z A).
Local Notation "x + y" := (a_add A x y).
Local Notation "x - y" := (a_sub A x y).
Local Notation "x * y" := (a_mul A x y).
Local Notation "x / y" := (a_div A x y).
Local Notation "x < y" := (a_lt A x y).
Local Notation "x <= y" := (a_le A x y).

(** [VirtualImage::read_data], lib/marc/VirtualImage.cpp:20-34; [None] when
    nothing is read.  [physical] is read_data_i. *)
Definition read_virtual (scale_ offset_ : A) (physical : A -> A -> outcome (option A)) (lat lon : A)
  : outcome (option A) :=
  bind (physical lat lon) (fun d =>
  Ok (match d with Some data => Some (data * scale_ + offset_) | None => None end)).

(** [VirtualImage::scale] and [offset], lib/marc/VirtualImage.h:123 and 134. *)
Definition virtual_scale (scale_ : A) : A := Zc 1 / scale_.
Definition virtual_offset (scale_ offset_ : A) : A := virtual_scale scale_ * (Zc 0 - offset_).

(** [LatitudeImage::read_data_i], lib/marc/LatitudeImage.cpp:27-49. *)
Definition latitude_data (L : libm A) (graphic : A -> A) (graphic_latitudes : bool) (lat _lon : A)
  : outcome (option A) :=
  if (lat < Zc 0 - l_pi2 L) || (l_pi2 L < lat) then Ok None
  else
    let data := if graphic_latitudes then graphic lat else lat in
    Ok (Some (data / l_degree L)).

(** [LongitudeImage::read_data_i], lib/marc/LongitudeImage.cpp:24-52, with
    longitude_low = 0 and longitude_high = 360
    (lib/marc/DefaultConfiguration.h:66-73); [circle] and [degree] are C::circle
    and C::degree, [fmod] is std::fmod. *)
Definition longitude_data (circle degree : A) (fmod : A -> A -> A) (_lat lon : A) : outcome (option A) :=
  let data := fmod lon circle / degree in
  let data := if data < Zc 0 then data + Zc 360
              else if Zc 360 < data then data - Zc 360 else data in
  Ok (if (Zc 0 <= data) && (data <= Zc 360) then Some data else None).

(** The common part of the cosine planes, [assert(data >= -1 && data <= 1)]:
    lib/marc/MuImage.cpp:48-50, lib/marc/Mu0Image.cpp:45-47,
    lib/marc/CosPhaseImage.cpp:54-56. *)
Definition checked_cosine (data : A) : outcome (option A) :=
  if (Zc (-1) <= data) && (data <= Zc 1) then Ok (Some data) else UB ub_assert.

(** [MuImage], lib/marc/MuImage.cpp:19-51: the constructor converts degrees to
    radians; [body_mu] is BodyData::mu. *)
Definition mu_data (L : libm A) (body_mu : A -> A -> A -> A -> A -> A)
    (sub_observ_lat sub_observ_lon range lat lon : A) : outcome (option A) :=
  checked_cosine (body_mu (sub_observ_lat * l_degree L) (sub_observ_lon * l_degree L) lat lon range).

(** [Mu0Image], lib/marc/Mu0Image.cpp:19-48. *)
Definition mu0_data (L : libm A) (body_mu0 : A -> A -> A -> A -> A)
    (sub_solar_lat sub_solar_lon lat lon : A) : outcome (option A) :=
  checked_cosine (body_mu0 (sub_solar_lat * l_degree L) (sub_solar_lon * l_degree L) lat lon).

(** [CosPhaseImage], lib/marc/CosPhaseImage.cpp:19-57. *)
Definition cos_phase_data (L : libm A) (body_cos_phase : A -> A -> A -> A -> A -> A -> A -> A)
    (sub_observ_lat sub_observ_lon sub_solar_lat sub_solar_lon range lat lon : A) : outcome (option A) :=
  checked_cosine (body_cos_phase (sub_observ_lat * l_degree L) (sub_observ_lon * l_degree L)
                    (sub_solar_lat * l_degree L) (sub_solar_lon * l_degree L) lat lon range).
End Virtual.

(** ** Factories *)

(** [SourceImageFactory::minimum] and [maximum], src/SourceImageFactory.cpp:14-28;
    the extrema are those of type double, src/SourceImageFactory.h:47. *)
Definition factory_minimum (ex : extrema (ct F64)) (datum : double) : outcome (extrema (ct F64)) :=
  match e_min ex with Some _ => Ok ex | None => ex_set_min ex datum end.
Definition factory_maximum (ex : extrema (ct F64)) (datum : double) : outcome (extrema (ct F64)) :=
  match e_max ex with Some _ => Ok ex | None => ex_set_max ex datum end.

(** The planes, with the limits of lib/marc/DefaultConfiguration.h:39-98. *)
Inductive plane := latitude_plane | longitude_plane | mu_plane | mu0_plane | cos_phase_plane.
Definition plane_low (p : plane) : Z :=
  match p with latitude_plane => -90 | longitude_plane => 0 | mu_plane | mu0_plane | cos_phase_plane => -1 end.
Definition plane_high (p : plane) : Z :=
  match p with latitude_plane => 90 | longitude_plane => 360 | mu_plane | mu0_plane | cos_phase_plane => 1 end.

(** [make] up to the creation of the image, src/LatitudeImageFactory.cpp:59-86,
    src/LongitudeImageFactory.cpp:55-85, src/MuImageFactory.cpp:54-82,
    src/Mu0ImageFactory.cpp:52-79, src/CosPhaseImageFactory.cpp:59-89: the
    scale and offset of the image and the limits of the factory afterwards.
    [L] and [t] determine the functor calc_so (src/MapCommand_t.cpp:117). *)
Definition make_virtual (L : scale_libm) (t : mapty) (p : plane) (ex : extrema (ct F64))
  : outcome (double * double * extrema (ct F64)) :=
  let low := double_of_Z (plane_low p) in
  let high := double_of_Z (plane_high p) in
  bind (scale_and_offset L t low high) (fun r =>
  match r with
  | None => Throw range_error
  | Some (scale, offset) =>
      bind (factory_minimum ex (low *' scale +' offset)) (fun ex =>
      bind (factory_maximum ex (high *' scale +' offset)) (fun ex =>
      Ok (scale, offset, ex)))
  end).

(** ** Constants as doubles *)

(** C::pi and C::pi_2 (the doubles nearest to the literals),
    C::circle = (2.0 * C::pi) * 1.0 and C::degree = (1.0 / 360.0) * C::circle,
    lib/marc/Constants.h:126-132 and 343-364. *)
Definition d_pi : double := dlit 7074237752028440 (-51).
Definition d_pi2 : double := dlit 7074237752028440 (-52).
Definition d_circle : double := double_of_Z 2 *' d_pi *' double_of_Z 1.
Definition d_degree : double := double_of_Z 1 /' double_of_Z 360 *' d_circle.

(** [LongitudeImage::read_data_i] with these constants; [fmod] is std::fmod. *)
Definition longitude_double (fmod : double -> double -> double) (lon : double) : outcome (option double) :=
  longitude_data (A := ar_double) d_circle d_degree fmod (double_of_Z 0) lon.

(** ** Over the reals *)
Open Scope R_scope.

(** std::fmod: the remainder of a division whose quotient is truncated. *)
Definition num_fmod : num -> num -> num :=
  num2 (fun x y => if Req_bool y 0 then NaN else Num (x - IZR (Ztrunc (x / y)) * y)).

Definition num_mu (eq pol : R) (a b lat lon range : ar_num) : ar_num :=
  match a, b, lat, lon, range with
  | Num a, Num b, Num lat, Num lon, Num range => Num (mu eq pol a b lat lon range)
  | _, _, _, _, _ => NaN
  end.
Definition num_mu0 (eq pol : R) (a b lat lon : ar_num) : ar_num :=
  match a, b, lat, lon with
  | Num a, Num b, Num lat, Num lon => Num (mu0 eq pol a b lat lon)
  | _, _, _, _ => NaN
  end.
Definition num_cos_phase (eq pol : R) (a b c d lat lon range : ar_num) : ar_num :=
  match a, b, c, d, lat, lon, range with
  | Num a, Num b, Num c, Num d, Num lat, Num lon, Num range =>
      Num (cos_phase eq pol a b c d lat lon range)
  | _, _, _, _, _, _, _ => NaN
  end.
