(** Specification of photo image reads, weights and interpolation. *)
From Coq Require Import List ZArith Reals.
From Flocq Require Import Core.
From Verif Require Import Base Num Utility_Spec Photo_Model.
Import ListNotations.

(** All size_t arguments are size_t values. *)
Definition size_nibbles (n : nibbles) : Prop :=
  is_size (n_left n) /\ is_size (n_right n) /\ is_size (n_top n) /\ is_size (n_bottom n).

(** Pixel (sample [i], line [k]) is at least the nibble widths away from the
    edges of the image. *)
Definition in_window (n : nibbles) (samples lines i k : Z) : Prop :=
  (n_left n <= i /\ i + n_right n < samples /\ n_top n <= k /\ k + n_bottom n < lines)%Z.

(** The strategies the program installs (src/PhotoImageFactory.cpp:119-128,
    lib/marc/PhotoImageParameters.cpp:26-37). *)
Definition program_interp {A : arith} (i : interp A) (samples lines : Z) (n : nibbles) : Prop :=
  i = null_interpolation \/ i = interpolate (bilinear_new samples lines n).

(** The pixel coordinates of a point convert to size_t, or are negative. *)
Definition pixel_position {A : arith} {P} (g : geometry A P) (pt : P) : Prop :=
  let '(visible, x, z) := g_pix g pt in
  visible = true -> a_lt A x (a_of_Z A 0) = false -> a_lt A z (a_of_Z A 0) = false ->
  exists i k, a_size A x = Ok i /\ a_size A z = Ok k /\ is_size i /\ is_size k.

(** [p] is a photo image constructed by the program: the constructor accepted
    it, the strategies are MaRC's, right and bottom nibbles do not exceed the
    image, and the sky mask covers the image. *)
Record built {A : arith} {P} (img : list A) (samples lines : Z) (c : config A) (g : geometry A P) (p : photo A P) : Prop := {
  b_new : photo_new img samples lines (Some c) (Some g) = Ok p;
  b_fits : (samples * lines < size_mod)%Z;
  b_nib : size_nibbles (c_nibbles c);
  b_right : (n_right (c_nibbles c) <= samples)%Z;
  b_bottom : (n_bottom (c_nibbles c) <= lines)%Z;
  b_interp : program_interp (c_interp c) samples lines (c_nibbles c);
  b_mask : c_remove_sky c = true -> Z.of_nat (length (g_mask g samples lines)) = (samples * lines)%Z }.

(** Answer of a read, leaving out what is in the variable without success. *)
Definition answer_of {B} (o : outcome (bool * B)) : outcome (option B) :=
  match o with
  | Ok (true, b) => Ok (Some b)
  | Ok (false, _) => Ok None
  | Throw e => Throw e
  | UB u => UB u
  end.

(** Four pixels around a position: bottom left/right, top left/right. *)
Record quad := Quad { q_bl : num; q_br : num; q_tl : num; q_tr : num }.
Definition quad_of (img : list num) (samples l b : Z) (q : quad) : Prop :=
  znth img (b * samples + l) = Some (q_bl q) /\
  znth img (b * samples + l + 1) = Some (q_br q) /\
  znth img ((b + 1) * samples + l) = Some (q_tl q) /\
  znth img ((b + 1) * samples + l + 1) = Some (q_tr q).

(** Pairs the interpolation can use: bottom, top or left pair without NaN. *)
Definition usable (q : quad) : Prop :=
  (q_bl q <> NaN /\ q_br q <> NaN) \/ (q_tl q <> NaN /\ q_tr q <> NaN) \/
  (q_tl q <> NaN /\ q_bl q <> NaN).

(** Number [v] is the value of every pixel of the quad that is not NaN. *)
Definition common_value (q : quad) (v : R) : Prop :=
  forall p, In p [q_bl q; q_br q; q_tl q; q_tr q] -> p = NaN \/ p = Num v.

Open Scope Z_scope.
(** The interpolation window lies in an image of [n] pixels. *)
Definition window_ok (c : bilinear) (n : Z) : Prop :=
  0 <= bl_left c /\ 0 <= bl_top c /\ 0 <= bl_samples c /\ bl_right c <= bl_samples c /\
  bl_bottom c * bl_samples c <= n /\ n < size_mod.

(** The 2x2 neighbourhood of sample [l], line [b] lies in the window. *)
Definition inside (c : bilinear) (l b : Z) : Prop :=
  bl_left c <= l /\ l + 1 < bl_right c /\ bl_top c <= b /\ b + 1 < bl_bottom c.

Close Scope Z_scope.
Definition min4 (a b c d : R) : R := Rmin (Rmin a b) (Rmin c d).
Definition max4 (a b c d : R) : R := Rmax (Rmax a b) (Rmax c d).

(** Pixel after subtraction of the flat field. *)
Definition flat_pixel {A : arith} (flat : option (list A * Z * Z)) (samples k i : nat) (img : list A) : option A :=
  match flat with
  | None => pixel img samples k i
  | Some (f, _, _) =>
      match pixel img samples k i, pixel f samples k i with
      | Some a, Some b => Some (a_sub A a b)
      | _, _ => None
      end
  end.

