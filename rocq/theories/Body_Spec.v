(** Specification vocabulary for C117: the geometry of bodies in doubles. *)
From Coq Require Import List ZArith Reals Bool.
From Flocq Require Import Core BinarySingleNaN.
From Verif Require Import Base Flt Num LinAlg_Model Spheroid_Model Spheroid_Spec Proj_Model Virtual_Model Params_Model Fits_Model Parse_Model Run_Model Run_Spec Ortho_Spec RunOrtho_Spec Body_Model.
Open Scope R_scope.

(** How close the functions of <cmath> are to the real ones. *)
Record good_library (L : libm ar_double) (arctan : double -> double) : Prop := GoodLibrary {
  gl_sin : forall x : double, is_finite x = true -> Rabs (B2R x) <= 40 -> nearly (l_sin L x) (sin (B2R x)) 1e-15;
  gl_cos : forall x : double, is_finite x = true -> Rabs (B2R x) <= 40 -> nearly (l_cos L x) (cos (B2R x)) 1e-15;
  gl_square : forall x : double, is_finite x = true -> / 4 <= B2R x <= 4 ->
    nearly (l_pow L x (double_of_Z 2)) (B2R x ^ 2) (1e-15 * B2R x ^ 2);
  gl_tan : forall x : double, is_finite x = true -> Rabs (B2R x) <= B2R d_pi2 ->
    nearly (l_tan L x) (tan (B2R x)) (1e-15 * Rabs (tan (B2R x)) + 1e-100);
  gl_arctan : forall x : double, is_finite x = true -> nearly (arctan x) (atan (B2R x)) 1e-15 /\ Rabs (B2R (arctan x)) <= B2R d_pi2;
  gl_hypot : forall x y : double, is_finite x = true -> is_finite y = true -> Rabs (B2R x) <= 1e10 -> Rabs (B2R y) <= 1e10 ->
    nearly (l_hypot L x y) (hypot (B2R x) (B2R y)) (1e-15 * hypot (B2R x) (B2R y) + 1e-100) }.

(** Bodies of 1 m to a billion kilometres, at most twice as wide as high. *)
Definition body_size (eq pol : double) : Prop :=
  is_finite eq = true /\ is_finite pol = true /\ 1e-3 <= B2R pol /\ B2R pol <= B2R eq <= 2 * B2R pol /\ B2R eq <= 1e9.
Definition angle (x : double) (bound : R) : Prop := is_finite x = true /\ Rabs (B2R x) <= bound.
(** Doubles within [w] of angles, of latitudes. *)
Definition toward (w : R) (x : double) (r : R) : Prop := is_finite x = true /\ Rabs (B2R x) <= 16 /\ Rabs (B2R x - r) <= w.
Definition upon (w : R) (la : double) (rla : R) : Prop := angle la (B2R d_pi2) /\ - (PI / 2) <= rla <= PI / 2 /\ Rabs (B2R la - rla) <= w.
(** Observers that are at least an equatorial radius above the surface. *)
Definition distance (range eq : double) : Prop := is_finite range = true /\ 2 * B2R eq <= B2R range <= 1e20.

(** ** In files *)
(** The functions of bodies are those of OblateSpheroid.cpp. *)
Definition spheroids (X : Run_Model.outside) (arctan : double -> double) : Prop :=
  let L := x_libm X in
  forall b : body, let eq := Spheroid_Model.eq_rad b in let pol := Spheroid_Model.pol_rad b in
  x_graphic X b = double_graphic L arctan eq pol /\ x_centric X b = double_centric L arctan eq pol /\
  x_mu X b = double_mu L arctan eq pol /\ x_mu0 X b = double_mu0 L arctan eq pol /\ x_cos_phase X b = double_cos_phase L eq pol.
Definition size_of (b : body) : Prop := body_size (Spheroid_Model.eq_rad b) (Spheroid_Model.pol_rad b).
Definition real_eq (b : body) : R := B2R (Spheroid_Model.eq_rad b : double).
Definition real_pol (b : body) : R := B2R (Spheroid_Model.pol_rad b : double).

Definition cosine_plane (f : source_factory) : option plane :=
  match f with F_mu _ _ _ _ => Some mu_plane | F_mu0 _ _ _ => Some mu0_plane | F_phase _ _ _ _ _ _ => Some cos_phase_plane | _ => None end.

(** What the planes MU, MU0 and PHASE are to show at point [p] of the surface, to
    within [e]: the cosines of the angles between the normal and the direction to the
    observer, the normal and the direction to the sun, and the directions to the
    observer and the sun. *)
Inductive shows_cosine (p : vector) (w : R) : source_factory -> R -> R -> Prop :=
| shows_mu b lat lon range : size_of b -> angle lat 360 -> angle lon 360 -> distance range (Spheroid_Model.eq_rad b) ->
    on_spheroid (real_eq b) (real_pol b) p ->
    shows_cosine p w (F_mu b lat lon range)
      (angle_cosine (gradient (real_eq b) (real_pol b) p) (minus3 (spherical (B2R range) (radians (B2R lat)) (radians (B2R lon))) p)) (1e-12 + 500 * w)
| shows_mu0 b lat lon : size_of b -> angle lat 360 -> angle lon 360 ->
    on_spheroid (real_eq b) (real_pol b) p ->
    shows_cosine p w (F_mu0 b lat lon)
      (angle_cosine (gradient (real_eq b) (real_pol b) p) (spherical 1 (radians (B2R lat)) (radians (B2R lon)))) (2e-14 + 13 * w)
| shows_phase b lat lon slat slon range : size_of b -> angle lat 360 -> angle lon 360 -> angle slat 360 -> angle slon 360 -> distance range (Spheroid_Model.eq_rad b) ->
    on_spheroid (real_eq b) (real_pol b) p ->
    shows_cosine p w (F_phase b lat lon slat slon range)
      (angle_cosine (spherical 1 (radians (B2R slat)) (radians (B2R slon))) (minus3 (spherical (B2R range) (radians (B2R lat)) (radians (B2R lon))) p)) (1e-12 + 500 * w).
