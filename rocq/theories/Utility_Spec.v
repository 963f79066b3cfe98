(** Specification vocabulary for image inversion: a pixel is addressed by
    line and sample, as a user of MaRC thinks of it. *)
From Coq Require Import List ZArith.
Import ListNotations.

(** Pixel at line [k], sample [i] of an image with [samples] columns stored
    line by line. *)
Definition pixel {A} (img : list A) (samples k i : nat) : option A :=
  nth_error img (k * samples + i).

(** [img'] is [img] mirrored left to right. *)
Definition mirrored_lr {A} (samples lines : nat) (img img' : list A) : Prop :=
  length img' = length img /\
  forall k i, (k < lines)%nat -> (i < samples)%nat ->
    pixel img' samples k i = pixel img samples k (samples - 1 - i).

(** [img'] is [img] mirrored top to bottom. *)
Definition mirrored_tb {A} (samples lines : nat) (img img' : list A) : Prop :=
  length img' = length img /\
  forall k i, (k < lines)%nat -> (i < samples)%nat ->
    pixel img' samples k i = pixel img samples (lines - 1 - k) i.

(** Dimensions whose number of pixels is a [std::size_t] value. *)
Definition fits (samples lines : Z) : Prop :=
  (0 <= samples /\ 0 <= lines /\ samples * lines < 2 ^ 64)%Z.
