(** Reading source images: src/FITS_file.cpp (input files) and
    src/PhotoImageFactory.cpp.  CFITSIO is given by what it answers: a status per
    call, the axes and the pixels of the image, the values of keywords. *)
From Coq Require Import List ZArith Bool Reals.
From Flocq Require Import Core BinarySingleNaN.
From Verif Require Import Base Flt Num Utility_Model Extrema_Model Virtual_Model Photo_Model.
From Verif Require View_Model.
Import ListNotations.
Open Scope Z_scope.

Section Input.
Context {A : arith} {P : Type}.
(** std::numeric_limits<double>::signaling_NaN(). *)
Context (nan : A).

(** The current image of a FITS file: the size of each axis, and the physical
    value (BZERO and BSCALE applied) of the pixel with the given coordinates,
    counted from 1; [None] for the BLANK value.  The statuses of
    fits_get_img_paramll and fits_read_pixll; what std::vector throws if it
    cannot hold so many elements. *)
Record fits_image := FitsImage {
  fi_axes : list Z; fi_pixel : list Z -> option A;
  fi_param_status : Z; fi_read_status : Z; fi_alloc : Z -> option exn }.

(** The coordinates of an element, counted from 1 in the order of the file. *)
Fixpoint coordinates (axes : list Z) (e : Z) : list Z :=
  match axes with
  | [] => []
  | n :: axes => (e - 1) mod n + 1 :: coordinates axes ((e - 1) / n + 1)
  end.
(** How fits_read_pixll finds the first element: it reads one coordinate per
    axis of the image from the caller's array. *)
Fixpoint first_element (axes fpixel : list Z) (dimsize : Z) : outcome Z :=
  match axes with
  | [] => Ok 1
  | n :: axes =>
      match fpixel with
      | [] => UB ub_access
      | x :: fpixel => bind (first_element axes fpixel (dimsize * n)) (fun e => Ok ((x - 1) * dimsize + e))
      end
  end.
Definition fits_read_pixll (f : fits_image) (fpixel : list Z) (nelements : Z) : outcome (list A) :=
  bind (first_element (fi_axes f) fpixel 1) (fun first =>
  if negb (fi_read_status f =? 0) then Throw runtime_error
  else Ok (map (fun i => match fi_pixel f (coordinates (fi_axes f) (first + Z.of_nat i)) with
                         | Some v => v | None => nan end) (seq 0 (Z.to_nat nelements)))).

(** [input_file::read], src/FITS_file.cpp:369-452; throw_on_error, 138-145.
    The product is of type LONGLONG. *)
Definition read_image (f : fits_image) : outcome (list A * Z * Z) :=
  if negb (fi_param_status f =? 0) then Throw runtime_error
  else match fi_axes f with
  | n0 :: n1 :: _ =>
      if (n0 <? 2) || (n1 <? 2) then Throw runtime_error
      else if 2 ^ 63 <=? n0 * n1 then UB ub_overflow
      else match fi_alloc f (n0 * n1) with
      | Some e => Throw e
      | None => bind (fits_read_pixll f [1; 1] (n0 * n1)) (fun img => Ok (img, wrap n0, wrap n1))
      end
  | _ => Throw runtime_error
  end.

(** [read_fits_key], src/FITS_file.cpp:78-97: a value, no such keyword, or
    another error. *)
Inductive keyword := key_value (x : double) | key_absent | key_error.
Definition read_key (k : keyword) : outcome (option double) :=
  match k with key_value x => Ok (Some x) | key_absent => Ok None | key_error => Throw runtime_error end.

(** A file: the status of opening it (fits_open_image, src/FITS_file.cpp:44-63;
    checksums are only warned about, 348-367), its image and keywords. *)
Record fits_file := FitsFile {
  ff_open_status : Z; ff_image : fits_image; ff_datamin : keyword; ff_datamax : keyword }.
Definition open_file (f : fits_file) : outcome unit :=
  if ff_open_status f =? 0 then Ok tt else Throw runtime_error.

(** The viewing geometry as given: with or without lens correction, and the size
    of the image, geometric_correction and finalize_setup make it ready to use
    ([View_Model.finalize_setup]); then the mask of the body if it is wanted. *)
Record raw_geometry := RawGeometry {
  rg_ready : bool -> Z -> Z -> outcome (geometry A P);
  rg_mask : bool -> Z -> Z -> outcome unit }.

(** PhotoImageFactory, src/PhotoImageFactory.h:112-148, with the limits of its
    base class. *)
Record photo_source := PhotoSource {
  ps_file : fits_file; ps_flat_field : option fits_file;
  ps_geometric_correction : bool; ps_interpolate : bool; ps_invert_v : bool; ps_invert_h : bool;
  ps_config : option (nibbles * bool); ps_geometry : option raw_geometry;
  ps_limits : extrema (ct F64) }.

(** Constructor, src/PhotoImageFactory.cpp:39-51: the file is opened here. *)
Definition photo_source_new (f : fits_file) : outcome photo_source :=
  bind (open_file f) (fun _ => Ok (PhotoSource f None false false false false None None ex_empty)).

(** Reading of the flat field, src/PhotoImageFactory.cpp:196-222. *)
Definition read_flat_field (f : option fits_file) : outcome (option (list A * Z * Z)) :=
  match f with
  | None => Ok None
  | Some f => bind (open_file f) (fun _ => bind (read_image (ff_image f)) (fun i => Ok (Some i)))
  end.

(** [make], src/PhotoImageFactory.cpp:90-153: the image, or null; and the factory
    afterwards. *)
Definition photo_make (f : photo_source) : outcome (option (photo A P) * photo_source) :=
  match ps_config f, ps_geometry f with
  | Some (n, sky), Some g =>
      bind (read_image (ff_image (ps_file f))) (fun '(img, samples, lines) =>
      bind (read_flat_field (ps_flat_field f)) (fun flat =>
      bind (prepare flat (ps_invert_h f) (ps_invert_v f) img samples lines) (fun img =>
      let c := Config (A := A) n sky
                 (if ps_interpolate f then interpolate (bilinear_new samples lines n) else null_interpolation)
                 null_correction in
      bind (rg_ready g (ps_geometric_correction f) samples lines) (fun ready =>
      bind (read_key (ff_datamin (ps_file f))) (fun datamin =>
      bind (read_key (ff_datamax (ps_file f))) (fun datamax =>
      bind (match datamin with Some m => factory_minimum (ps_limits f) m | None => Ok (ps_limits f) end) (fun ex =>
      bind (match datamax with Some m => factory_maximum ex m | None => Ok ex end) (fun ex =>
      bind (if sky then rg_mask g (ps_geometric_correction f) samples lines else Ok tt) (fun _ =>
      bind (photo_new img samples lines (Some c) (Some ready)) (fun p =>
      Ok (Some p, PhotoSource (ps_file f) (ps_flat_field f) (ps_geometric_correction f) (ps_interpolate f)
                    (ps_invert_v f) (ps_invert_h f) None None ex)))))))))))
  | _, _ => Ok (None, f)
  end.

End Input.
Arguments fits_image A : clear implicits.
Arguments fits_file A : clear implicits.
Arguments raw_geometry A P : clear implicits.
Arguments photo_source A P : clear implicits.

(** The geometry of a view, over the reals: lib/marc/ViewingGeometry.cpp as in
    [View_Model].  [other] stands for a view that holds NaN after
    finalize_setup, which is not modelled further. *)
Section View.
Context (other : geometry ar_num (R * R)).
Definition view_geometry (v : View_Model.view) : geometry ar_num (R * R) :=
  Geometry (A := ar_num)
    (fun p => match View_Model.latlon2pix v (fst p) (snd p) with
              | Some (x, z) => (true, x, z)
              | None => (false, NaN, NaN)
              end)
    (fun samples lines => match View_Model.body_mask v samples lines with Ok m => m | _ => [] end).
Definition raw_view (prograde : bool) (eq pol : R) (g : View_Model.geom ar_num) (term : bool)
  : raw_geometry ar_num (R * R) :=
  let setup lens samples lines :=
    View_Model.finalize_setup prograde eq pol g term
      (if lens : bool then View_Model.gll_correction samples else View_Model.null_correction) samples lines in
  RawGeometry (A := ar_num)
    (fun lens samples lines => bind (setup lens samples lines) (fun v =>
       Ok (match v with Some v => view_geometry v | None => other end)))
    (fun lens samples lines => bind (setup lens samples lines) (fun v =>
       match v with
       | Some v => bind (View_Model.body_mask v samples lines) (fun _ => Ok tt)
       | None => Ok tt
       end)).
End View.
