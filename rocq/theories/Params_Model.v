(** src/map_parameters.{h,cpp}, populate_parameters of the image factories and
    src/MapCommand.cpp:393-436. *)
From Coq Require Import List ZArith Bool String.
From Flocq Require Import BinarySingleNaN.
From Verif Require Import Base Flt Num Maths_Model.
Import ListNotations.
Open Scope Z_scope.

(** The parameters that are strings, optional doubles, and the rest;
    [param_key], src/map_parameters.h:339-356 (bitpix has no key). *)
Inductive skey := k_author | k_bunit | k_instrument | k_object | k_observer | k_origin | k_reference | k_telescope.
Inductive dkey := k_bscale | k_bzero | k_datamax | k_datamin | k_equinox.
Inductive key := KS (k : skey) | KD (k : dkey) | KBlank | KComment | KXComment.
Definition skey_eqb (a b : skey) : bool :=
  match a, b with
  | k_author, k_author | k_bunit, k_bunit | k_instrument, k_instrument | k_object, k_object
  | k_observer, k_observer | k_origin, k_origin | k_reference, k_reference | k_telescope, k_telescope => true
  | _, _ => false
  end.
Definition dkey_eqb (a b : dkey) : bool :=
  match a, b with
  | k_bscale, k_bscale | k_bzero, k_bzero | k_datamax, k_datamax | k_datamin, k_datamin | k_equinox, k_equinox => true
  | _, _ => false
  end.
Definition key_eqb (a b : key) : bool :=
  match a, b with
  | KS a, KS b => skey_eqb a b
  | KD a, KD b => dkey_eqb a b
  | KBlank, KBlank | KComment, KComment | KXComment, KXComment => true
  | _, _ => false
  end.

(** [map_parameters], src/map_parameters.h:424-616.  The eight strings and the
    five optional doubles are functions of their keys; a history line is kept as
    the data it is formatted from. *)
Inductive noted := noted_double (d : double) | noted_blank (z : Z).
Record params := Params {
  p_plane : Z;
  p_bitpix : Z;
  p_str : skey -> string;
  p_dbl : dkey -> option double;
  p_blank : option Z;
  p_comments : list string;
  p_xcomments : list string;
  p_histories : list (Z * key * noted);
  p_locked : key -> bool }.

(** Assignment to members. *)
Definition put_bitpix (p : params) (n : Z) : params :=
  Params (p_plane p) n (p_str p) (p_dbl p) (p_blank p) (p_comments p) (p_xcomments p) (p_histories p) (p_locked p).
Definition put_str (p : params) (k : skey) (s : string) : params :=
  Params (p_plane p) (p_bitpix p) (fun j => if skey_eqb j k then s else p_str p j) (p_dbl p) (p_blank p)
    (p_comments p) (p_xcomments p) (p_histories p) (p_locked p).
Definition put_dbl (p : params) (k : dkey) (d : option double) : params :=
  Params (p_plane p) (p_bitpix p) (p_str p) (fun j => if dkey_eqb j k then d else p_dbl p j) (p_blank p)
    (p_comments p) (p_xcomments p) (p_histories p) (p_locked p).
Definition put_blank (p : params) (b : option Z) : params :=
  Params (p_plane p) (p_bitpix p) (p_str p) (p_dbl p) b (p_comments p) (p_xcomments p) (p_histories p) (p_locked p).
Definition put_comments (p : params) (l : list string) : params :=
  Params (p_plane p) (p_bitpix p) (p_str p) (p_dbl p) (p_blank p) l (p_xcomments p) (p_histories p) (p_locked p).
Definition put_xcomments (p : params) (l : list string) : params :=
  Params (p_plane p) (p_bitpix p) (p_str p) (p_dbl p) (p_blank p) (p_comments p) l (p_histories p) (p_locked p).
Definition put_history (p : params) (h : Z * key * noted) : params :=
  Params (p_plane p) (p_bitpix p) (p_str p) (p_dbl p) (p_blank p) (p_comments p) (p_xcomments p)
    (p_histories p ++ [h]) (p_locked p).
Definition put_lock (p : params) (k : key) : params :=
  Params (p_plane p) (p_bitpix p) (p_str p) (p_dbl p) (p_blank p) (p_comments p) (p_xcomments p) (p_histories p)
    (fun j => key_eqb j k || p_locked p j).

(** [valid_bitpix], src/map_parameters.cpp:37-45, with the CFITSIO constants. *)
Definition valid_bitpix (n : Z) : bool :=
  (n =? 8) || (n =? 16) || (n =? 32) || (n =? 64) || (n =? -32) || (n =? -64).

(** Constructor, src/map_parameters.cpp:54-79. *)
Definition params_new (plane : Z) : outcome params :=
  if plane <? 0 then Throw invalid_argument
  else Ok (Params plane 0 (fun _ => EmptyString) (fun _ => None) None [] [] [] (fun _ => false)).

(** [user_supplied], src/map_parameters.h:414. *)
Definition user_supplied (p : params) : bool := p_plane p =? 0.
(** [lock_parameter], src/map_parameters.cpp:242-249. *)
Definition lock (k : key) (p : params) : params := if user_supplied p then put_lock p k else p.
(** [is_mergeable], src/map_parameters.cpp:251-257. *)
Definition is_mergeable (p : params) (k : key) : bool := negb (p_locked p k) || negb (user_supplied p).

(** The setters, src/map_parameters.cpp:86-91, 113-240. *)
Definition set_str (k : skey) (s : string) (p : params) : params := lock (KS k) (put_str p k s).
Definition set_dbl (k : dkey) (d : option double) (p : params) : params := lock (KD k) (put_dbl p k d).
Definition set_blank (b : option Z) (p : params) : params := lock KBlank (put_blank p b).
Definition push_comment (c : string) (p : params) : params := lock KComment (put_comments p (p_comments p ++ [c])).
Definition push_xcomment (c : string) (p : params) : params := lock KXComment (put_xcomments p (p_xcomments p ++ [c])).
(** [bitpix(int)] and [bitpix()], src/map_parameters.cpp:93-111. *)
Definition set_bitpix (n : Z) (p : params) : outcome params :=
  if valid_bitpix n then Ok (put_bitpix p n) else Throw invalid_argument.
Definition get_bitpix (p : params) : outcome Z :=
  if valid_bitpix (p_bitpix p) then Ok (p_bitpix p) else Throw runtime_error.

(** [merge_optional], src/map_parameters.cpp:361-411, 413-459 and 461-477.
    Warnings are left out. *)
Definition merge_dbl (k : dkey) (from : params) (to : params) : params :=
  match p_dbl from k with
  | None => to
  | Some f =>
      if is_nan f || negb (is_mergeable to (KD k)) then to
      else match p_dbl to k with
           | None => put_dbl to k (Some f)
           | Some t =>
               if almost_equal (A := ar_double) eps_double tiny_double t f 2 then to
               else if user_supplied to then to
               else put_history to (p_plane to, KD k, noted_double t)
           end
  end.
Definition merge_blank (from : params) (to : params) : params :=
  match p_blank from with
  | None => to
  | Some f =>
      if negb (is_mergeable to KBlank) then to
      else match p_blank to with
           | None => put_blank to (Some f)
           | Some t =>
               if t =? f then to
               else if user_supplied to then to
               else put_history to (p_plane to, KBlank, noted_blank t)
           end
  end.
Definition merge_str (k : skey) (from : params) (to : params) : params :=
  if negb (is_mergeable to (KS k)) then to
  else if String.eqb (p_str to k) EmptyString then put_str to k (p_str from k) else to.

(** [merge], src/map_parameters.cpp:275-359: [*this] and [p] afterwards; the
    result is always true. *)
Definition merge (this p : params) : outcome (params * params) :=
  let b := p_bitpix this in
  let n := p_bitpix p in
  bind (if negb (n =? 0) && ((b =? 0) || negb (user_supplied this)) then
          if (b =? 0) || ((0 <? n) && (b <? n)) || ((n <? 0) && (n <? b))
          then set_bitpix n this else Ok this
        else Ok this) (fun t =>
  let t := merge_str k_author p t in
  let t := merge_blank p t in
  let t := merge_dbl k_bscale p t in
  let t := merge_str k_bunit p t in
  let t := merge_dbl k_bzero p t in
  let t := merge_dbl k_equinox p t in
  let t := merge_str k_instrument p t in
  let t := merge_str k_object p t in
  let t := merge_str k_observer p t in
  let t := merge_str k_origin p t in
  let t := merge_str k_reference p t in
  let t := merge_str k_telescope p t in
  let '(t, p) := if is_mergeable t KComment
                 then (put_comments t (p_comments t ++ p_comments p), put_comments p []) else (t, p) in
  let '(t, p) := if is_mergeable t KXComment
                 then (put_xcomments t (p_xcomments t ++ p_xcomments p), put_xcomments p []) else (t, p) in
  Ok (t, p)).

(** Values of a FITS file read by PhotoImageFactory. *)
Record header := Header {
  h_str : skey -> string; h_bitpix : Z; h_blank : option Z; h_equinox : option double }.

(** Image factories as far as their parameters go. *)
Inductive source :=
| photo (h : header)
| mosaic (hs : list header)
| degrees            (* latitude and longitude planes *)
| cosines.           (* mu, mu0 and phase planes *)

(** [PhotoImageFactory::populate_parameters], src/PhotoImageFactory.cpp:59-89. *)
Definition populate_photo (h : header) (p : params) : outcome params :=
  let p := set_str k_author (h_str h k_author) p in
  bind (set_bitpix (h_bitpix h) p) (fun p =>
  let p := set_blank (h_blank h) p in
  let p := set_str k_bunit (h_str h k_bunit) p in
  let p := set_dbl k_equinox (h_equinox h) p in
  let p := set_str k_instrument (h_str h k_instrument) p in
  let p := set_str k_object (h_str h k_object) p in
  let p := set_str k_observer (h_str h k_observer) p in
  let p := set_str k_origin (h_str h k_origin) p in
  let p := set_str k_reference (h_str h k_reference) p in
  let p := set_str k_telescope (h_str h k_telescope) p in
  Ok p).

(** [MosaicImageFactory::populate_parameters], src/MosaicImageFactory.cpp:58-72. *)
Fixpoint populate_mosaic (hs : list header) (p : params) : outcome params :=
  match hs with
  | [] => Ok p
  | h :: hs => bind (populate_photo h p) (populate_mosaic hs)
  end.

(** The others: src/LatitudeImageFactory.cpp:30-57,
    src/LongitudeImageFactory.cpp:26-53, src/MuImageFactory.cpp:33-51,
    src/Mu0ImageFactory.cpp:32-50, src/CosPhaseImageFactory.cpp:38-57. *)
Definition populate (s : source) (p : params) : outcome params :=
  match s with
  | photo h => populate_photo h p
  | mosaic hs => populate_mosaic hs p
  | degrees => Ok (set_str k_bunit "deg" p)
  | cosines => Ok p
  end.

(** [MapCommand::populate_map_parameters], src/MapCommand.cpp:393-436; [plane]
    counts from 1. *)
Fixpoint populate_planes (plane : Z) (sources : list source) (to_merge : params) : outcome params :=
  match sources with
  | [] => Ok to_merge
  | s :: sources =>
      bind (params_new plane) (fun pp =>
      bind (populate s pp) (fun pp =>
      bind (merge to_merge pp) (fun '(to_merge, _) =>
      populate_planes (plane + 1) sources to_merge)))
  end.
Definition populate_map_parameters (sources : list source) (parameters : params) : outcome params :=
  bind (params_new 0) (fun to_merge =>
  bind (populate_planes 1 sources to_merge) (fun to_merge =>
  bind (merge parameters to_merge) (fun '(parameters, _) => Ok parameters))).
