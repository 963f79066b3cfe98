(** Specification vocabulary for C58 and C59. *)
From Coq Require Import List ZArith Bool String.
From Flocq Require Import BinarySingleNaN.
From Verif Require Import Base Flt Params_Model.
Import ListNotations.
Open Scope Z_scope.

(** Calls that supply parameters, in the order they are made. *)
Inductive setting :=
| give_str (k : skey) (s : string)
| give_dbl (k : dkey) (d : option double)
| give_blank (b : option Z)
| give_bitpix (n : Z)
| give_comment (c : string)
| give_xcomment (c : string).

(** The effect of one call; one that throws changes nothing. *)
Definition give (x : setting) (p : params) : params :=
  match x with
  | give_str k s => set_str k s p
  | give_dbl k d => set_dbl k d p
  | give_blank b => set_blank b p
  | give_bitpix n => match set_bitpix n p with Ok q => q | _ => p end
  | give_comment c => push_comment c p
  | give_xcomment c => push_xcomment c p
  end.
Definition supplied (plane : Z) (l : list setting) : outcome params :=
  bind (params_new plane) (fun p => Ok (fold_left (fun p x => give x p) l p)).

(** Merging several sets of parameters (plane number and settings) into one. *)
Fixpoint merge_all (u : params) (planes : list (Z * list setting)) : outcome params :=
  match planes with
  | [] => Ok u
  | (n, l) :: planes => bind (supplied n l) (fun p => bind (merge u p) (fun '(u, _) => merge_all u planes))
  end.

(** ** What was supplied last, in words of the calls only *)
Definition skey_dec (a b : skey) : {a = b} + {a <> b}. Proof. decide equality. Defined.
Definition dkey_dec (a b : dkey) : {a = b} + {a <> b}. Proof. decide equality. Defined.

Definition last_of {T} (f : setting -> option T) (l : list setting) : option T :=
  fold_left (fun acc x => match f x with Some t => Some t | None => acc end) l None.
Definition str_of (k : skey) (x : setting) : option string :=
  match x with give_str j s => if skey_dec j k then Some s else None | _ => None end.
Definition dbl_of (k : dkey) (x : setting) : option (option double) :=
  match x with give_dbl j d => if dkey_dec j k then Some d else None | _ => None end.
Definition blank_of (x : setting) : option (option Z) :=
  match x with give_blank b => Some b | _ => None end.
(** Only BITPIX values of the FITS standard count. *)
Definition bitpix_of (x : setting) : option Z :=
  match x with give_bitpix n => if in_dec Z.eq_dec n [8; 16; 32; 64; -32; -64] then Some n else None | _ => None end.
Definition comments_of (l : list setting) : list string :=
  flat_map (fun x => match x with give_comment c => [c] | _ => [] end) l.
Definition xcomments_of (l : list setting) : list string :=
  flat_map (fun x => match x with give_xcomment c => [c] | _ => [] end) l.

(** The first plane that supplies something. *)
Fixpoint first_of {A T} (f : A -> option T) (l : list A) : option T :=
  match l with
  | [] => None
  | x :: l => match f x with Some t => Some t | None => first_of f l end
  end.

(** A supplied string, number or blank value that can be used. *)
Definition usable_str (k : skey) (l : list setting) : option string :=
  match last_of (str_of k) l with Some EmptyString | None => None | Some s => Some s end.
Definition usable_dbl (k : dkey) (l : list setting) : option double :=
  match k, last_of (dbl_of k) l with
  | (k_datamin | k_datamax), _ => None
  | _, Some (Some d) => if is_nan d then None else Some d
  | _, _ => None
  end.
Definition usable_blank (l : list setting) : option Z :=
  match last_of blank_of l with Some b => b | None => None end.

(** The parameters that result when the user's settings have priority and the
    planes fill in the rest, the earlier plane first. *)
Definition resolved (user : list setting) (planes : list (list setting)) (r : params) : Prop :=
  (forall k, p_str r k = match last_of (str_of k) user with
                         | Some s => s
                         | None => match first_of (usable_str k) planes with Some s => s | None => EmptyString end
                         end) /\
  (forall k, p_dbl r k = match last_of (dbl_of k) user with
                         | Some d => d
                         | None => first_of (usable_dbl k) planes
                         end) /\
  p_blank r = match last_of blank_of user with
              | Some b => b
              | None => first_of usable_blank planes
              end /\
  p_bitpix r = match last_of bitpix_of user with
               | Some n => n
               | None => match first_of (last_of bitpix_of) planes with Some n => n | None => 0 end
               end /\
  p_comments r = match comments_of user with [] => flat_map comments_of planes | l => l end /\
  p_xcomments r = match xcomments_of user with [] => flat_map xcomments_of planes | l => l end.

(** The settings made for a source image: those of its (last) photo, which
    supplies everything PhotoImageFactory reads from the file. *)
Definition photo_settings (h : header) : list setting :=
  [give_str k_author (h_str h k_author); give_bitpix (h_bitpix h); give_blank (h_blank h);
   give_str k_bunit (h_str h k_bunit); give_dbl k_equinox (h_equinox h); give_str k_instrument (h_str h k_instrument);
   give_str k_object (h_str h k_object); give_str k_observer (h_str h k_observer); give_str k_origin (h_str h k_origin);
   give_str k_reference (h_str h k_reference); give_str k_telescope (h_str h k_telescope)].
Definition source_settings (s : source) : list setting :=
  match s with
  | photo h => photo_settings h
  | mosaic hs => flat_map photo_settings hs
  | degrees => [give_str k_bunit "deg"]
  | cosines => []
  end.
(** All photos of a source have a BITPIX of the FITS standard. *)
Definition standard (h : header) : Prop := In (h_bitpix h) [8; 16; 32; 64; -32; -64].
Definition standard_source (s : source) : Prop :=
  match s with
  | photo h => standard h
  | mosaic hs => Forall standard hs
  | _ => True
  end.

(** ** C59 *)
(** Data of type [b] can be stored in a map of type [a]: same kind and at least as wide. *)
Definition holds (a b : Z) : Prop := (0 < b <= a) \/ (a <= b < 0).
