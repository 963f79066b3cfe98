(** lib/marc/ViewingGeometry.cpp, lib/marc/GLLGeometricCorrection.cpp and
    lib/marc/NullGeometricCorrection.cpp.  The setters are generic in the
    arithmetic; setup and conversions are over the reals (mode R). *)
From Coq Require Import List ZArith Reals Bool.
From Flocq Require Import Core.
From Verif Require Import Base Num LinAlg_Model Maths_Model Spheroid_Model.
Import ListNotations.

(** The floating point members changed by setters,
    lib/marc/ViewingGeometry.h:400-490. *)
Inductive member :=
| sub_observ_lat_ | sub_observ_lon_ | sub_solar_lat_ | sub_solar_lon_ | range_ | position_angle_
| km_per_pixel_ | focal_length_ | scale_ | OA_s_ | OA_l_ | sample_center_ | line_center_
| lat_at_center_ | lon_at_center_ | mu_limit_.

Definition member_eqb (a b : member) : bool :=
  match a, b with
  | sub_observ_lat_, sub_observ_lat_ | sub_observ_lon_, sub_observ_lon_ | sub_solar_lat_, sub_solar_lat_
  | sub_solar_lon_, sub_solar_lon_ | range_, range_ | position_angle_, position_angle_
  | km_per_pixel_, km_per_pixel_ | focal_length_, focal_length_ | scale_, scale_ | OA_s_, OA_s_ | OA_l_, OA_l_
  | sample_center_, sample_center_ | line_center_, line_center_ | lat_at_center_, lat_at_center_
  | lon_at_center_, lon_at_center_ | mu_limit_, mu_limit_ => true
  | _, _ => false
  end.

Section Setters.
Context {A : arith}.
(** C::degree, C::pi, C::_2pi, the largest accepted range
    sqrt(DBL_MAX), std::cos, and the radii of the body. *)
Context (degree pi twopi max_range : A) (cosine : A -> A) (eq pol : A).

Definition geom := member -> A.
Definition set (m : member) (x : A) (g : geom) : geom := fun k => if member_eqb m k then x else g k.

(** The object after a call, and the exception it left with. *)
Definition result := (geom * option exn)%type.

(** Assignment of a validated value. *)
Definition store (m : member) (v : outcome A) (g : geom) : result :=
  match v with
  | Ok x => (set m x g, None)
  | Throw e => (g, Some e)
  | UB _ => (g, None)
  end.

(** Two setters called in turn. *)
Definition then_ (r : result) (k : geom -> result) : result :=
  match r with (g, None) => k g | (g, Some e) => (g, Some e) end.

(** [x <= y] *)
Definition a_le (x y : A) : bool := negb (a_isnan A x) && negb (a_isnan A y) && negb (a_lt A y x).

(** sub_observ_lat, sub_solar_lat, lat_at_center, position_angle,
    lib/marc/ViewingGeometry.cpp:187-190, 210-213, 225-228, 786-789. *)
Definition set_latitude (m : member) (lat : A) (g : geom) : result := store m (validate_latitude degree lat) g.
Definition set_position_angle (north : A) (g : geom) : result :=
  store position_angle_ (validate_position_angle degree north) g.

(** sub_observ_lon, sub_solar_lon, lon_at_center,
    lib/marc/ViewingGeometry.cpp:192-200, 215-223, 791-799. *)
Definition set_longitude (m : member) (lon : A) (g : geom) : result :=
  match validate_longitude degree lon with
  | Ok x => (set m (if a_lt A x (a_of_Z A 0) then a_add A x twopi else x) g, None)
  | Throw e => (g, Some e)
  | UB _ => (g, None)
  end.

(** sub_observ, sub_solar, lat_lon_center,
    lib/marc/ViewingGeometry.cpp:180-185, 203-208, 779-784. *)
Definition set_lat_lon (m_lat m_lon : member) (lat lon : A) (g : geom) : result :=
  then_ (set_latitude m_lat lat g) (set_longitude m_lon lon).

(** [arcsec_per_pixel], lib/marc/ViewingGeometry.cpp:649-687. *)
Definition set_arcsec_per_pixel (a : A) (g : geom) : result :=
  if a_le a (a_of_Z A 0) then (g, Some invalid_argument)
  else if a_isnan A (g range_) then (g, Some logic_error)
  else (set km_per_pixel_ (a_mul A (a_mul A (a_div A pi (a_of_Z A 648000)) a) (g range_)) g, None).

(** km_per_pixel, focal_length, scale, lib/marc/ViewingGeometry.cpp:689-696,
    737-744, 746-753. *)
Definition set_positive (m : member) (x : A) (g : geom) : result :=
  if a_le x (a_of_Z A 0) then (g, Some invalid_argument) else (set m x g, None).

(** [range], lib/marc/ViewingGeometry.cpp:719-735; std::min(eq, pol). *)
Definition set_range (r : A) (g : geom) : result :=
  let min_range := if a_lt A pol eq then pol else eq in
  if a_le r min_range || a_le max_range r then (g, Some invalid_argument) else (set range_ r g, None).

(** body_center_sample, body_center_line, optical_axis_sample,
    optical_axis_line, lib/marc/ViewingGeometry.cpp:762-777, 808-825. *)
Definition set_position (m : member) (x : A) (g : geom) : result :=
  if a_isnan A x then (g, Some invalid_argument) else (set m x g, None).

(** body_center, optical_axis, lib/marc/ViewingGeometry.cpp:755-760, 801-806. *)
Definition set_positions (m_sample m_line : member) (sample line : A) (g : geom) : result :=
  then_ (set_position m_sample sample g) (set_position m_line line).

(** [emi_ang_limit], lib/marc/ViewingGeometry.cpp:827-836. *)
Definition set_emi_ang_limit (angle : A) (g : geom) : result :=
  if a_lt A (a_of_Z A 90) (a_abs A angle) then (g, Some domain_error)
  else (set mu_limit_ (cosine (a_mul A angle degree)) g, None).
End Setters.
Arguments geom : clear implicits.
Arguments result : clear implicits.

Open Scope R_scope.

(** ** Lens corrections *)

(** A GeometricCorrection: both functions take and return (line, sample). *)
Record correction := Correction { object_to_image : R -> R -> R * R; image_to_object : R -> R -> R * R }.

(** lib/marc/NullGeometricCorrection.cpp:14-28. *)
Definition null_correction : correction := Correction (fun l s => (l, s)) (fun l s => (l, s)).

(** std::cbrt. *)
Definition cbrt (x : R) : R :=
  if Rlt_bool 0 x then Rpower x (/ 3) else if Rlt_bool x 0 then - Rpower (- x) (/ 3) else 0.

(** Constants, lib/marc/GLLGeometricCorrection.cpp:24-31. *)
Definition DISTORTION : R := 658 / 100000000000.
Definition OA_LINE : R := 400.
Definition OA_SAMPLE : R := 400.

(** Constructor, lib/marc/GLLGeometricCorrection.cpp:35-38. *)
Definition summation_mode (samples : Z) : bool := (samples <=? 400)%Z.

(** [image_to_object], lib/marc/GLLGeometricCorrection.cpp:40-82. *)
Definition gll_image_to_object (summation : bool) (line sample : R) : R * R :=
  let x := if summation then sample * 2 - OA_SAMPLE else sample - OA_SAMPLE in
  let y := if summation then line * 2 - OA_LINE else line - OA_LINE in
  let is_rad := hypot x y in
  if Req_bool is_rad 0 then (line, sample)
  else
    let common_term1 := is_rad / (2 * DISTORTION) in
    let common_term2 := sqrt (common_term1 ^ 2 + (1 / (3 * DISTORTION)) ^ 3) in
    let A_3 := common_term1 + common_term2 in
    let B_3 := common_term1 - common_term2 in
    let os_rad := cbrt A_3 + cbrt B_3 in
    let line := os_rad * y / is_rad + OA_LINE in
    let sample := os_rad * x / is_rad + OA_SAMPLE in
    if summation then (line / 2, sample / 2) else (line, sample).

(** [object_to_image], lib/marc/GLLGeometricCorrection.cpp:84-111. *)
Definition gll_object_to_image (summation : bool) (line sample : R) : R * R :=
  let x := if summation then sample * 2 - OA_SAMPLE else sample - OA_SAMPLE in
  let y := if summation then line * 2 - OA_LINE else line - OA_LINE in
  let common_term := 1 + DISTORTION * (x * x + y * y) in
  let line := y * common_term + OA_LINE in
  let sample := x * common_term + OA_SAMPLE in
  if summation then (line / 2, sample / 2) else (line, sample).

Definition gll_correction (samples : Z) : correction :=
  Correction (gll_object_to_image (summation_mode samples)) (gll_image_to_object (summation_mode samples)).

(** ** Setup *)

(** std::asin: NaN outside [-1, 1]. *)
Definition nasin (x : num) : num :=
  match x with
  | Num r => if Rle_bool (-1) r && Rle_bool r 1 then Num (asin r) else NaN
  | NaN => NaN
  end.

(** DVector::magnitude and to_unit_vector, lib/marc/details/vector.h:100-106,
    lib/marc/Vector.h, for three rows; no unit vector of the null vector. *)
Definition mag3 (v : vector) : R := sqrt (vget v 0 * vget v 0 + vget v 1 * vget v 1 + vget v 2 * vget v 2).
Definition unit3 (v : vector) : option vector :=
  if Req_bool (mag3 v) 0 then None else to_unit_vector v.

(** Result of the search for the observer to body transformation: no real root,
    a matrix with NaN elements, or a matrix. *)
Inductive rotation := no_rotation | nan_rotation | rotation_is (o2b : matrix).

Definition m3mul := mmul 3 3 3.
Definition m3v := mvmul 3 3.

(** Magnitude of the difference used to compare the two candidates; NaN for a
    NaN matrix. *)
Definition candidate_error (target source : vector) (m : option matrix) : num :=
  match m with Some o2b => Num (mag3 (vsub target (m3v o2b source))) | None => NaN end.

(** Keep the first candidate unless the second is closer,
    lib/marc/ViewingGeometry.cpp:414-440, 555-590.  The tolerance test that
    follows only logs. *)
Definition choose (target source : vector) (m1 m2 : option matrix) : rotation :=
  match (if nlt (candidate_error target source m2) (candidate_error target source m1) then m2 else m1) with
  | Some o2b => rotation_is o2b
  | None => nan_rotation
  end.

(** Observer to body matrix for given angles, e.g.
    lib/marc/ViewingGeometry.cpp:405-408. *)
Definition o2b_matrix (Ztwist SubLatMod position_angle : R) : matrix :=
  m3mul (RotZMatrix Ztwist) (m3mul (RotXMatrix SubLatMod) (RotYMatrix (- position_angle))).

(** One root tried by [rot_matrices], lib/marc/ViewingGeometry.cpp:396-408 and
    417-432. *)
Definition candidate (position_angle : R) (r_o : vector) (root : num) : option matrix :=
  match nasin root with
  | Num SubLatMod =>
      let rotated := RotX SubLatMod r_o in
      Some (o2b_matrix (atan2 (vget rotated 0) (- vget rotated 1)) SubLatMod position_angle)
  | NaN => None
  end.

(** [rot_matrices] for a given body center, lib/marc/ViewingGeometry.cpp:361-493.
    For a line of sight along the polar axis [atan2(0, -0)] depends on the sign
    of a zero; it is 0 here. *)
Definition rot_matrices_center (sub_lat position_angle : R) (range_b range_o : vector) : rotation :=
  match unit3 range_o with
  | None => nan_rotation
  | Some u =>
      let r_o := RotY (- position_angle) u in
      let a := vget r_o 2 * vget r_o 2 + vget r_o 1 * vget r_o 1 in
      let b := 2 * vget r_o 1 * sin sub_lat in
      let c := sin sub_lat * sin sub_lat - vget r_o 2 * vget r_o 2 in
      match quadratic_roots a b c with
      | None => no_rotation
      | Some (t1, t2) =>
          choose range_b range_o (candidate position_angle r_o t1) (candidate position_angle r_o t2)
      end
  end.

(** [rot_matrices] for a given latitude and longitude at the optical axis,
    lib/marc/ViewingGeometry.cpp:495-647. *)
Definition rot_matrices_axis (position_angle : R) (range_b OA : vector) : rotation :=
  match unit3 OA with
  | None => nan_rotation
  | Some u =>
      let dotProd := dot_product [0; 0; 1] u in
      let SubLatMod0 := asin (- dotProd) in
      let R_b := RotX (- SubLatMod0) range_b in
      let m1 := o2b_matrix (atan2 (vget R_b 0) (- vget R_b 1)) SubLatMod0 position_angle in
      let OA_O := [0; mag3 OA; 0] in
      let SubLatMod1 := PI - SubLatMod0 in
      let R_b2 := RotX (- SubLatMod1) range_b in
      let m2 := o2b_matrix (atan2 (vget R_b2 0) (- vget R_b2 1)) SubLatMod1 position_angle in
      choose OA OA_O (Some m1) (Some m2)
  end.

(** A ViewingGeometry after [finalize_setup]. *)
Record view := View {
  v_prograde : bool; v_eq : R; v_pol : R;
  v_sub_lat : R; v_sub_lon : R; v_range : R;
  v_range_b : vector; v_o2b : matrix; v_b2o : matrix; v_normal_range : R;
  v_km_per_pixel : num; v_focal_length_pixels : num;
  v_OA_s : R; v_OA_l : R; v_sample_center : num; v_line_center : num;
  v_mu_limit : num; v_sub_solar_lat : num; v_sub_solar_lon : num;
  v_use_terminator : bool; v_correction : correction }.

(** DMatrix default constructor. *)
Definition zero_matrix : matrix := [[0; 0; 0]; [0; 0; 0]; [0; 0; 0]].

(** Matrices left in observ2body_ and body2observ_; [None] if they contain NaN. *)
Definition matrices (r : rotation) : option (matrix * matrix) :=
  match r with
  | no_rotation => Some (zero_matrix, zero_matrix)
  | nan_rotation => None
  | rotation_is m => Some (m, transpose 3 3 m)
  end.

(** [set_km_per_pixel], lib/marc/ViewingGeometry.cpp:698-717: kilometers per
    pixel and focal length in pixels (NaN: not set). *)
Definition nhypot3 (x y z : num) : num :=
  match x, y, z with Num a, Num b, Num c => Num (sqrt (a * a + b * b + c * c)) | _, _, _ => NaN end.
Definition resolve_km_per_pixel (g : geom ar_num) (oa_s oa_l : num) : outcome (num * num) :=
  if negb (num_isnan (g km_per_pixel_)) then Ok (g km_per_pixel_, NaN)
  else if num_isnan (g focal_length_) || num_isnan (g scale_) then Throw logic_error
  else
    let fp := nmul (g focal_length_) (g scale_) in
    Ok (ndiv (g range_) (nhypot3 (nsub oa_s (g sample_center_)) fp (nsub oa_l (g line_center_))), fp).

(** [finalize_setup], lib/marc/ViewingGeometry.cpp:232-358.  [Ok None]: the
    object holds NaN in range_b_, normal_range_ or the matrices; what it does
    then is not modelled. *)
Definition finalize_setup (prograde : bool) (eq pol : R) (g : geom ar_num) (term : bool) (corr : correction)
    (samples lines : Z) : outcome (option view) :=
  let oa_s := if num_isnan (g OA_s_) then ndiv (Num (IZR samples)) (Num 2) else g OA_s_ in
  let oa_l := if num_isnan (g OA_l_) then ndiv (Num (IZR lines)) (Num 2) else g OA_l_ in
  bind (resolve_km_per_pixel g oa_s oa_l) (fun kf =>
  let '(kpp, fp) := kf in
  match oa_s, oa_l, g sub_observ_lat_, g sub_observ_lon_, g range_, g position_angle_ with
  | Num os, Num ol, Num sub_lat, Num sub_lon, Num range, Num pa =>
      let range_b := [0; - range * cos sub_lat; range * sin sub_lat] in
      let finish mats normal_range :=
        match mats with
        | None => Ok None
        | Some (o2b, b2o) =>
            let fp' := if num_isnan fp then ndiv (Num normal_range) kpp else fp in
            Ok (Some (View prograde eq pol sub_lat sub_lon range range_b o2b b2o normal_range kpp fp'
                           os ol (g sample_center_) (g line_center_) (g mu_limit_)
                           (g sub_solar_lat_) (g sub_solar_lon_) term corr))
        end in
      if num_isnan (g lat_at_center_) || num_isnan (g lon_at_center_) then
        match nmul (nsub oa_s (g sample_center_)) kpp, nmul (nsub (g line_center_) oa_l) kpp with
        | Num x, Num z =>
            let mag := mag3 [x; 0; z] in
            let sq := (range - mag) * (range + mag) in
            if Rlt_bool sq 0 then Ok None
            else
              let normal_range := sqrt sq in
              finish (matrices (rot_matrices_center sub_lat pa range_b [x; - normal_range; z])) normal_range
        | _, _ => Ok None
        end
      else
        match g lat_at_center_, g lon_at_center_ with
        | Num lat_c, Num lon_c =>
            let lon := if prograde then sub_lon - lon_c else - (sub_lon - lon_c) in
            let radius := centric_radius eq pol lat_c in
            let r0 := [radius * cos lat_c * sin lon; - radius * cos lat_c * cos lon; radius * sin lat_c] in
            let OA_prime := vsub r0 range_b in
            match unit3 OA_prime with
            | None => Ok None
            | Some OA_hat =>
                let dp := dot_product r0 OA_hat in
                let OpticalAxis := vsub OA_prime (vscale OA_hat dp) in
                match matrices (rot_matrices_axis pa range_b OpticalAxis) with
                | None => Ok None
                | Some (o2b, b2o) => finish (Some (o2b, b2o)) (- vget (m3v b2o range_b) 1)
                end
            end
        | _, _ => Ok None
        end
  | _, _, _, _, _, _ => Ok None
  end).

(** ** Conversions *)

Section Convert.
Context (v : view).

(** [is_visible], lib/marc/ViewingGeometry.cpp:135-178. *)
Definition is_visible (lat lon : R) : bool :=
  nlt (v_mu_limit v) (Num (mu (v_eq v) (v_pol v) (v_sub_lat v) (v_sub_lon v) lat lon (v_range v)))
  && (negb (v_use_terminator v)
      || match v_sub_solar_lat v, v_sub_solar_lon v with
         | Num sl, Num so => Rlt_bool 0 (mu0 (v_eq v) (v_pol v) sl so lat lon)
         | _, _ => false
         end).

(** [latlon2pix], lib/marc/ViewingGeometry.cpp:844-902: sample and line, or
    failure.  The correction is called with (z, x). *)
Definition latlon2pix (lat lon : R) : option (num * num) :=
  if negb (is_visible lat lon) then None
  else
    let radius := centric_radius (v_eq v) (v_pol v) lat in
    let lon := if v_prograde v then v_sub_lon v - lon else lon - v_sub_lon v in
    let coord := [radius * cos lat * sin lon; - radius * cos lat * cos lon; radius * sin lat] in
    let obs := vsub coord (v_range_b v) in
    let rotated := m3v (v_b2o v) obs in
    let x := nmul (ndiv (Num (vget rotated 0)) (Num (vget rotated 1))) (v_focal_length_pixels v) in
    let z := nmul (ndiv (Num (vget rotated 2)) (Num (vget rotated 1))) (v_focal_length_pixels v) in
    match x, z with
    | Num x, Num z =>
        let '(z, x) := object_to_image (v_correction v) z x in
        Some (Num (x + v_OA_s v), Num (v_OA_l v - z))
    | _, _ => Some (NaN, NaN)
    end.

(** [pix2latlon], lib/marc/ViewingGeometry.cpp:903-951.  A NaN in the center or
    scale makes every element of dVec NaN; the assertion in
    ellipse_intersection then fails. *)
Definition pix2latlon (sample line : R) : outcome (option (num * R)) :=
  match v_sample_center v, v_line_center v, v_km_per_pixel v with
  | Num sc, Num lc, Num kpp =>
      let sample := sample - sc in
      let line := lc - line in
      let '(sample, line) := image_to_object (v_correction v) sample line in
      let coord := [sample; 0; line] in
      let rotated := vscale (m3v (v_o2b v) coord) kpp in
      let dVec := vsub rotated (v_range_b v) in
      match ellipse_intersection (v_eq v) (v_pol v) (v_range_b v) dVec with
      | Ok (found lat lon) =>
          Ok (Some (lat, if v_prograde v then v_sub_lon v - lon else lon - v_sub_lon v))
      | Ok miss => Ok None
      | Ok bad_input => UB ub_assert
      | Throw e => Throw e
      | UB u => UB u
      end
  | _, _, _ => UB ub_assert
  end.

(** [body_mask], lib/marc/ViewingGeometry.cpp:953-982. *)
Definition mask_pixel (samples : Z) (k : nat) (acc : outcome (list bool)) (i : nat) : outcome (list bool) :=
  bind acc (fun mask =>
  bind (pix2latlon (INR i) (INR k)) (fun r =>
  match r with
  | None => Ok mask
  | Some _ =>
      let index := wrap (wrap (Z.of_nat k * samples) + Z.of_nat i) in
      if (index <? Z.of_nat (length mask))%Z then Ok (upd mask (Z.to_nat index) true) else UB ub_access
  end)).
Definition body_mask (samples lines : Z) : outcome (list bool) :=
  fold_left (fun acc k => fold_left (mask_pixel samples k) (seq 0 (Z.to_nat samples)) acc)
            (seq 0 (Z.to_nat lines)) (Ok (repeat false (Z.to_nat (wrap (samples * lines))))).
End Convert.
