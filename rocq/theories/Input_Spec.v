(** Vocabulary for source images (C94, C95). *)
From Coq Require Import List ZArith Bool Reals.
From Verif Require Import Base Flt Num Utility_Spec Photo_Model Photo_Spec Input_Model.
Import ListNotations.
Open Scope Z_scope.

Section Spec.
Context {A : arith} {P : Type} (nan : A).

(** The FITS pixel at sample [i], line [k], counted from 0; NaN if blank. *)
Definition physical (f : fits_image A) (i k : Z) : A :=
  match fi_pixel f [i + 1; k + 1] with Some v => v | None => nan end.

(** [img] holds the image line by line. *)
Definition shows (f : fits_image A) (samples lines : Z) (img : list A) : Prop :=
  Z.of_nat (length img) = samples * lines /\
  forall k i, (k < Z.to_nat lines)%nat -> (i < Z.to_nat samples)%nat ->
    pixel img (Z.to_nat samples) k i = Some (physical f (Z.of_nat i) (Z.of_nat k)).

(** No more than two axes, and fewer than 2^63 pixels. *)
Definition flat_image (f : fits_image A) : Prop :=
  (length (fi_axes f) <= 2)%nat /\ forall n0 n1, fi_axes f = [n0; n1] -> n0 * n1 < 2 ^ 63.

(** The same of the image and of the flat field. *)
Definition flat_source (f : photo_source A P) : Prop :=
  flat_image (ff_image (ps_file f)) /\ forall d, ps_flat_field f = Some d -> flat_image (ff_image d).

(** The sample or line of the file for one of the photo. *)
Definition turned (inverted : bool) (size i : Z) : Z := if inverted then size - 1 - i else i.
(** The value of the photo: that of the file, less the flat field. *)
Definition photo_value (f : photo_source A P) (samples lines i k : Z) : A :=
  let i := turned (ps_invert_h f) samples i in
  let k := turned (ps_invert_v f) lines k in
  let v := physical (ff_image (ps_file f)) i k in
  match ps_flat_field f with
  | Some d => a_sub A v (physical (ff_image d) i k)
  | None => v
  end.
End Spec.

(** A limit given by the user, or else in the header of the source. *)
Definition first_given (given : option double) (k : keyword) : option double :=
  match given, k with
  | Some x, _ => Some x
  | None, key_value x => Some x
  | None, _ => None
  end.
