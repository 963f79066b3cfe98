(** src/FITS_image.{h,cpp} and src/FITS_image_t.cpp: the image array of a map
    file as a state machine. *)
From Coq Require Import List ZArith Bool.
From Verif Require Import Base.
Import ListNotations.
Open Scope Z_scope.

(** Conversion of a [std::size_t] to CFITSIO's signed 64-bit [LONGLONG]. *)
Definition to_longlong (z : Z) : Z := if wrap z <? 2 ^ 63 then wrap z else wrap z - 2 ^ 64.

(** Members of [FITS::image], src/FITS_image.h:288-302. *)
Record image := Image { im_fpixel : Z; im_nelements : Z; im_max : Z }.

(** Constructor, src/FITS_image.cpp:17-28: the sizes are computed as
    [std::size_t] and stored as [LONGLONG]. *)
Definition image_new (samples lines planes : Z) : image :=
  let n := to_longlong (samples * lines) in
  Image 1 n (to_longlong (n * planes)).

(** The axes passed to fits_create_imgll, src/FITS_image.cpp:30-67. *)
Definition image_axes (samples lines planes : Z) : list Z :=
  let naxes := [to_longlong samples; to_longlong lines; to_longlong planes] in
  firstn (if 1 <? planes then 3%nat else 2%nat) naxes.

Section Write.
Context {E : Type}.

(** The elements in the file (numbered from 1) that have been written. *)
Definition disk := Z -> option E.

(** One call of fits_write_img as CFITSIO carries it out: the status it returns
    and, when that is an error, what the elements it was asked to write
    contain afterwards. *)
Record attempt := Attempt { a_data : list E; a_status : Z; a_left : disk }.

Definition fits_write_img (fpixel nelements : Z) (a : attempt) (d : disk) : disk := fun e =>
  if (fpixel <=? e) && (e <? fpixel + nelements) then
    if a_status a =? 0 then nth_error (a_data a) (Z.to_nat (e - fpixel)) else a_left a e
  else d e.

(** [write], src/FITS_image_t.cpp:87-150.  The data size is a [std::size_t]. *)
Definition write (a : attempt) (im : image) (d : disk) : outcome (bool * image * disk) :=
  if im_max im <=? im_fpixel im then Ok (false, im, d)
  else if negb (to_longlong (Z.of_nat (length (a_data a))) =? im_nelements im) then Ok (false, im, d)
  else
    let d' := fits_write_img (im_fpixel im) (im_nelements im) a d in
    if negb (a_status a =? 0) then Ok (false, im, d')
    else
      let next := im_fpixel im + im_nelements im in
      if next <? 2 ^ 63 then Ok (true, Image next (im_nelements im) (im_max im), d')
      else UB ub_overflow.

(** A history of writes: the results, in order, and the final state. *)
Fixpoint writes (l : list attempt) (im : image) (d : disk) : outcome (list bool * image * disk) :=
  match l with
  | [] => Ok ([], im, d)
  | a :: l =>
      bind (write a im d) (fun '(r, im, d) =>
      bind (writes l im d) (fun '(rs, im, d) => Ok (r :: rs, im, d)))
  end.

End Write.
Arguments attempt E : clear implicits.
Arguments disk E : clear implicits.
