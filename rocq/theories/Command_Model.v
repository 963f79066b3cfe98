(** src/MapCommand.cpp, src/MapCommand_t.cpp: one map command, from its
    parameters to the map file; src/MosaicImageFactory.cpp; the map part of
    src/marc.cpp. *)
From Coq Require Import List ZArith Bool String.
From Flocq Require Import BinarySingleNaN.
From Verif Require Import Base Flt Num Maths_Model Extrema_Model MakeMap_Model Virtual_Model Params_Model Fits_Model.
Import ListNotations.
Open Scope Z_scope.

(** ** The map file *)

(** A value of one of the map data types. *)
Definition datum : Type := {t : mapty & ct t}.

(** A header card: a keyword with its value, or commentary. *)
Inductive card :=
| key_string (name value : string)
| key_int (name : string) (value : Z)
| key_double (name : string) (value : double)
| key_datum (name : string) (value : datum)
| card_comment (text : string)
| card_projection (projection : string)               (* "... projection created by ..." *)
| card_grid (projection : string)                      (* "... projection grid created using ..." *)
| card_plane (plane : Z)                               (* "Plane ... characteristics:" *)
| card_bscale (scale : double)                         (* "    BSCALE: ..." *)
| card_bzero (offset : double).                        (* "    BZERO:  ..." *)

(** An image array of a map file: its data type (BITPIX), its axes, its cards
    (without those CFITSIO writes on its own, EXTNAME, CREATOR and the date)
    and its elements. *)
Record hdu := Hdu { h_type : mapty; h_axes : list Z; h_cards : list card; h_disk : disk datum }.

(** What the map's file name refers to. *)
Inductive file :=
| no_file
| old_file                       (* the file that existed before *)
| new_file (hdus : list hdu).

(** The file, and the number of CFITSIO calls made so far. *)
Record world := World { w_file : file; w_calls : nat }.

(** Computations on the file that may throw; the file stays as it is then. *)
Definition cmd (A : Type) : Type := world -> world * outcome A.
Definition ret {A} (a : A) : cmd A := fun w => (w, Ok a).
Definition raise {A} (e : exn) : cmd A := fun w => (w, Throw e).
Definition lift {A} (o : outcome A) : cmd A := fun w => (w, o).
Definition andthen {A B} (m : cmd A) (f : A -> cmd B) : cmd B := fun w =>
  match m w with
  | (w, Ok a) => f a w
  | (w, Throw e) => (w, Throw e)
  | (w, UB u) => (w, UB u)
  end.
Notation "x <- m ;; f" := (andthen m (fun x => f)) (at level 61, m at next level, right associativity).
Notation "m ;; f" := (andthen m (fun _ => f)) (at level 61, right associativity).

Section Command.
(** The status CFITSIO returns for its n-th call, and what it leaves in the
    elements it was to write when that is an error. *)
Variable status : nat -> Z.
Variable left_over : nat -> disk datum.

Definition call : cmd Z := fun w => (World (w_file w) (S (w_calls w)), Ok (status (w_calls w))).
(** [throw_on_error], src/FITS_file.cpp:141-148. *)
Definition checked : cmd unit := s <- call ;; if s =? 0 then ret tt else raise runtime_error.

(** A card added to the last array of the file. *)
Definition add_card (c : card) : cmd unit := fun w =>
  (World match w_file w with
         | new_file hs =>
             match rev hs with
             | h :: r => new_file (rev r ++ [Hdu (h_type h) (h_axes h) (h_cards h ++ [c]) (h_disk h)])
             | [] => new_file []
             end
         | f => f
         end (w_calls w), Ok tt).
Definition put_card (c : card) : cmd unit := checked ;; add_card c.

(** [FITS::image::update_fits_key] of a string, src/FITS_image.cpp:191-224:
    nothing is written for an empty string. *)
Definition put_string (name value : string) : cmd unit :=
  if String.eqb value EmptyString then ret tt else put_card (key_string name value).
(** [bscale], [bzero], src/FITS_image.cpp:104-123. *)
Definition put_double (name : string) (d : double) : cmd unit :=
  if is_nan d then ret tt else put_card (key_double name d).
(** [blank], src/FITS_image_t.cpp:43-63, for a value in the range of T (see
    [make_map]). *)
Definition put_blank (t : mapty) (b : option Z) : cmd unit :=
  match b with
  | Some z => if c_integral (ct t) then put_card (key_int "BLANK" z) else ret tt
  | None => ret tt
  end.
(** [datamin], [datamax], src/FITS_image_t.cpp:65-85. *)
Definition put_datum (name : string) (t : mapty) (v : ct t) : cmd unit :=
  if is_nan (c_to_double (ct t) v) then ret tt else put_card (key_datum name (existT _ t v)).

(** [output_file::output_file], src/FITS_file.cpp:322-325 and 43-64; the file
    exists after a successful call of fits_create_file. *)
Definition create_file : cmd unit :=
  checked ;; fun w => (World (new_file []) (w_calls w), Ok tt).
(** [unlink]: its result is ignored (MapCommand.cpp:140); [removable] tells
    whether it succeeds. *)
Definition unlink (removable : bool) : cmd unit := fun w =>
  (World (if removable then no_file else w_file w) (w_calls w), Ok tt).

(** [image::image], src/FITS_image.cpp:17-92: the array is created and the
    keywords EXTNAME (for an extension), CREATOR and DATE are written; an error
    of fits_create_imgll is carried over to fits_write_date and thrown last. *)
Definition make_image (t : mapty) (samples lines planes : Z) (extension : bool) : cmd image :=
  s <- call ;;
  (if s =? 0 then fun w =>
     (World match w_file w with
            | new_file hs => new_file (hs ++ [Hdu t (image_axes samples lines planes) [] (fun _ => None)])
            | f => f
            end (w_calls w), Ok tt)
   else ret tt) ;;
  (if extension then checked else ret tt) ;;
  checked ;;
  d <- call ;;
  if (s =? 0) && (d =? 0) then ret (image_new samples lines planes) else raise runtime_error.

(** [image::write] on the last array of the file. *)
Definition write_image (t : mapty) (im : image) (data : list (ct t)) : cmd (bool * image) := fun w =>
  match w_file w with
  | new_file hs =>
      match rev hs with
      | h :: r =>
          let a := Attempt (map (fun v => existT _ t v : datum) data) (status (w_calls w)) (left_over (w_calls w)) in
          match write a im (h_disk h) with
          | Ok (ok, im, d) =>
              (World (new_file (rev r ++ [Hdu (h_type h) (h_axes h) (h_cards h) d])) (S (w_calls w)), Ok (ok, im))
          | Throw e => (w, Throw e)
          | UB u => (w, UB u)
          end
      | [] => (w, UB ub_null)
      end
  | _ => (w, UB ub_null)
  end.

(** ** Planes *)

(** A source image: its [read_data], and scale and offset if it is a
    VirtualImage. *)
Record simage := SImage { si_read : reader; si_scaling : option (double * double) }.

(** An image factory: its parameters, and the image its [make] yields for map
    data of a type (null if [None]) with its limits afterwards. *)
Record factory := Factory {
  f_source : source;
  f_make : mapty -> outcome (option simage * extrema (ct F64)) }.

(** [write_virtual_image_facts], src/MapCommand.cpp:281-391. *)
Definition virtual_facts (p : params) (plane num_planes : Z) (i : simage) : cmd unit :=
  match si_scaling i with
  | None => ret tt
  | Some (scale, offset) =>
      b <- lift (get_bitpix p) ;;
      if b <? 0 then ret tt
      else
        let offset := if almost_zero (A := ar_double) eps_double offset 1 then double_of_Z 0 else offset in
        put_string "BUNIT" (p_str p k_bunit) ;;
        if num_planes =? 1 then
          put_double "BSCALE" scale ;;
          put_double "BZERO" offset ;;
          checked                                     (* internal_scale *)
        else
          put_card (card_plane plane) ;;
          put_card (card_bscale scale) ;;
          put_card (card_bzero offset)
  end.

(** The plane loop, src/MapCommand_t.cpp:126-174.  A failed write is reported
    and ignored. *)
Fixpoint plane_loop (t : mapty) (p : params) (calls : list (point * Z)) (num_planes : Z)
    (factories : list factory) (plane : Z) (info : plot_info (ct t)) (im : image) : cmd (plot_info (ct t)) :=
  match factories with
  | [] => ret info
  | f :: factories =>
      made <- lift (f_make f t) ;;
      match made with
      | (None, _) => plane_loop t p calls num_planes factories plane info im
      | (Some i, minmax) =>
          virtual_facts p plane num_planes i ;;
          e <- lift (ex_convert t minmax) ;;
          r <- lift (make_map (si_read i) e info calls) ;;
          let '(map, info) := r in
          wr <- write_image t im map ;;
          let '(_, im) := wr in
          plane_loop t p calls num_planes factories (plane + 1) info im
      end
  end.

Fixpoint put_comments (l : list string) : cmd unit :=
  match l with
  | [] => ret tt
  | c :: l => put_card (card_comment c) ;; put_comments l
  end.

(** One map command: the members of [MapCommand] that matter, the calls its
    projection makes of the plot functor, and its grid (made only when one was
    asked for). *)
Record command := Command {
  c_samples : Z; c_lines : Z; c_projection : string; c_calls : list (point * Z);
  c_grid : option (outcome (list Z)); c_factories : list factory; c_params : params }.

(** [make_map_planes], src/MapCommand_t.cpp:29-186.  [transform_data_] is always
    false. *)
Definition make_planes (c : command) (t : mapty) (p : params) : cmd unit :=
  let num_planes := Z.of_nat (List.length (c_factories c)) in
  im <- make_image t (c_samples c) (c_lines c) num_planes false ;;
  put_blank t (p_blank p) ;;
  put_string "AUTHOR" (p_str p k_author) ;;
  put_string "ORIGIN" (p_str p k_origin) ;;
  put_string "OBJECT" (p_str p k_object) ;;
  put_comments (p_comments p) ;;
  put_card (card_projection (c_projection c)) ;;
  let info := plot_info_new (c_samples c) (c_lines c) (p_blank p) in
  let info := set_notifier info (subscribe (pi_notifier info)) in
  info <- plane_loop t p (c_calls c) num_planes (c_factories c) 1 info im ;;
  if data_mapped info then
    match e_min (pi_extrema info), e_max (pi_extrema info) with
    | Some mn, Some mx => put_datum "DATAMIN" t mn ;; put_datum "DATAMAX" t mx
    | _, _ => lift (UB ub_optional)
    end
  else ret tt.

(** [write_grid], src/MapCommand.cpp:209-260. *)
Definition write_grid (c : command) (p : params) : cmd unit :=
  match c_grid c with
  | None => ret tt
  | Some grid =>
      im <- make_image U8 (c_samples c) (c_lines c) 1 true ;;
      put_comments (p_xcomments p) ;;
      put_card (card_grid (c_projection c)) ;;
      put_card (key_double "DATAMIN" (double_of_Z 255)) ;;
      put_card (key_double "DATAMAX" (double_of_Z 255)) ;;
      put_card (key_int "BLANK" 0) ;;
      g <- lift grid ;;
      write_image U8 im g ;;
      ret tt
  end.

(** The data type of a BITPIX value, src/MapCommand.cpp:148-172. *)
Definition type_of_bitpix (b : Z) : option mapty :=
  if b =? 8 then Some U8 else if b =? 16 then Some I16 else if b =? 32 then Some I32
  else if b =? 64 then Some I64 else if b =? -32 then Some F32 else if b =? -64 then Some F64 else None.

(** [execute], src/MapCommand.cpp:129-189. *)
Definition execute (removable : bool) (c : command) : cmd Z :=
  p <- lift (populate_map_parameters (map f_source (c_factories c)) (c_params c)) ;;
  unlink removable ;;
  create_file ;;
  b <- lift (get_bitpix p) ;;
  match type_of_bitpix b with
  | None => ret (-1)
  | Some t => make_planes c t p ;; write_grid c p ;; ret 0
  end.
End Command.

(** ** main *)

(** The commands in turn, src/marc.cpp:225-231: the exit status so far and the
    number of commands started. *)
Fixpoint run_commands (l : list (outcome Z)) (result : Z) (started : nat) : outcome Z * nat :=
  match l with
  | [] => (Ok result, started)
  | Ok r :: l => run_commands l (if r =? 0 then result else 1) (S started)
  | Throw e :: _ => (Throw e, S started)
  | UB u :: _ => (UB u, S started)
  end.

(** Input files in turn, src/marc.cpp:217-219: whether all were parsed. *)
Fixpoint parse_files (l : list (outcome Z)) : outcome bool :=
  match l with
  | [] => Ok true
  | o :: l => bind o (fun r => if r =? 0 then parse_files l else Ok false)
  end.

(** [main], src/marc.cpp:191-245: exit status and number of commands started.
    [config] is the result of parsing the user configuration file, [enoent]
    whether errno is ENOENT afterwards, [cl] the result of parsing the command
    line, [parsed] those of the input files and [commands] those of the
    commands they define. *)
Definition main (config : outcome Z) (enoent : bool) (cl : outcome bool) (parsed commands : list (outcome Z))
  : outcome Z * nat :=
  let body :=
    match config with
    | Ok r =>
        if negb (r =? 0) && negb enoent then (Ok (-1), O)
        else match cl with
             | Ok true =>
                 match parse_files parsed with
                 | Ok true => run_commands commands 0 O
                 | Ok false => (Ok (-1), O)
                 | Throw e => (Throw e, O)
                 | UB u => (UB u, O)
                 end
             | Ok false => (Ok 1, O)
             | Throw e => (Throw e, O)
             | UB u => (UB u, O)
             end
    | Throw e => (Throw e, O)
    | UB u => (UB u, O)
    end in
  match body with
  | (Throw _, n) => (Ok (-1), n)
  | b => b
  end.

(** ** Mosaics *)

(** The limits of a photo factory and what its file says (DATAMIN, DATAMAX). *)
Record photo_limits := PhotoLimits {
  pl_ex : extrema (ct F64); pl_datamin : option double; pl_datamax : option double }.

(** The limits after [PhotoImageFactory::make], src/PhotoImageFactory.cpp:136-144. *)
Definition photo_make (f : photo_limits) : outcome (extrema (ct F64)) :=
  bind (match pl_datamin f with Some m => factory_minimum (pl_ex f) m | None => Ok (pl_ex f) end) (fun ex =>
  match pl_datamax f with Some m => factory_maximum ex m | None => Ok ex end).

(** [MosaicImageFactory::make], src/MosaicImageFactory.cpp:74-118, as far as the
    limits go; [own] are those set before. *)
Fixpoint mosaic_loop (l : list photo_limits) (ex : extrema (ct F64)) (vmin vmax : bool)
  : outcome (extrema (ct F64) * bool * bool) :=
  match l with
  | [] => Ok (ex, vmin, vmax)
  | f :: l =>
      let minmax := pl_ex f in
      let vmin := match e_min minmax with None => false | Some _ => vmin end in
      let vmax := match e_max minmax with None => false | Some _ => vmax end in
      let ex := ex_merge ex minmax in
      bind (photo_make f) (fun _ => mosaic_loop l ex vmin vmax)
  end.
Definition mosaic_make (l : list photo_limits) (own : extrema (ct F64)) : outcome (extrema (ct F64)) :=
  bind (mosaic_loop l ex_empty true true) (fun '(ex, vmin, vmax) =>
  bind (if vmin then match e_min ex with Some m => factory_minimum own m | None => UB ub_optional end else Ok own) (fun own =>
  if vmax then match e_max ex with Some m => factory_maximum own m | None => UB ub_optional end else Ok own)).
(** Constructor, src/MosaicImageFactory.cpp:44-56. *)
Definition mosaic_new {A} (l : list A) : outcome (list A) :=
  if (List.length l <? 2)%nat then Throw invalid_argument else Ok l.
