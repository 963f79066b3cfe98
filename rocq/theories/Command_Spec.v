(** Specification vocabulary for C61, C62, C72 and C89. *)
From Coq Require Import List ZArith Bool String Reals.
From Flocq Require Import BinarySingleNaN.
From Verif Require Import Base Flt Num Maths_Model Extrema_Model MakeMap_Model Virtual_Model Params_Model Fits_Model
  Fits_Spec Command_Model.
Import ListNotations.
Open Scope Z_scope.

(** ** C62 *)
(** The parameters of the map cannot be determined. *)
Definition undetermined (c : command) : Prop :=
  ~ exists p b, populate_map_parameters (map f_source (c_factories c)) (c_params c) = Ok p /\ get_bitpix p = Ok b.

(** ** C89: the file that a successful command leaves *)
Definition string_card (name value : string) : list card :=
  match value with EmptyString => [] | _ => [key_string name value] end.
Definition double_card (name : string) (d : double) : list card :=
  if is_nan d then [] else [key_double name d].
Definition datum_card (name : string) (t : mapty) (v : ct t) : list card :=
  if is_nan (c_to_double (ct t) v) then [] else [key_datum name (existT _ t v)].

(** Cards for the computed plane number [n] of an integer map of [num] planes. *)
Definition scaling_cards (p : params) (num n : Z) (i : simage) : list card :=
  match si_scaling i with
  | Some (scale, offset) =>
      if p_bitpix p <? 0 then []
      else
        let zero := if almost_zero (A := ar_double) eps_double offset 1 then double_of_Z 0 else offset in
        string_card "BUNIT" (p_str p k_bunit) ++
        if num =? 1 then double_card "BSCALE" scale ++ double_card "BZERO" zero
        else [card_plane n; card_bscale scale; card_bzero zero]
  | None => []
  end.
Fixpoint planes_cards (p : params) (num n : Z) (l : list simage) : list card :=
  match l with
  | [] => []
  | i :: l => scaling_cards p num n i ++ planes_cards p num (n + 1) l
  end.

(** The header of the map array. *)
Definition header_cards (c : command) (t : mapty) (p : params) (images : list simage)
    (limits : option (option (ct t) * option (ct t))) : list card :=
  match p_blank p with Some z => if c_integral (ct t) then [key_int "BLANK" z] else [] | None => [] end ++
  string_card "AUTHOR" (p_str p k_author) ++ string_card "ORIGIN" (p_str p k_origin) ++
  string_card "OBJECT" (p_str p k_object) ++ map card_comment (p_comments p) ++ [card_projection (c_projection c)] ++
  planes_cards p (Z.of_nat (List.length (c_factories c))) 1 images ++
  match limits with Some (Some mn, Some mx) => datum_card "DATAMIN" t mn ++ datum_card "DATAMAX" t mx | _ => [] end.

(** The images that the factories make, null ones left out, and the planes of
    MakeMap_Model they amount to. *)
Fixpoint produced (l : list (option simage)) : list simage :=
  match l with
  | [] => []
  | Some i :: l => i :: produced l
  | None :: l => produced l
  end.
Definition makes (t : mapty) (f : factory) (o : option simage * extrema (ct F64)) : Prop := f_make f t = Ok o.
Definition as_plane (o : option simage * extrema (ct F64)) : MakeMap_Model.plane :=
  Plane (option_map si_read (fst o)) (snd o).

Definition stored {t} (m : list (ct t)) : list datum := map (fun v => existT _ t v) m.

(** The grid extension. *)
Definition grid_cards (c : command) (p : params) : list card :=
  map card_comment (p_xcomments p) ++
  [card_grid (c_projection c); key_double "DATAMIN" (double_of_Z 255); key_double "DATAMAX" (double_of_Z 255); key_int "BLANK" 0].

(** The elements of an array of planes after attempts to write [maps] in order. *)
Definition written_by (status : nat -> Z) (samples lines planes : Z) (maps : list (list datum)) (d : disk datum) : Prop :=
  exists l results im, map a_data l = maps /\ Forall (fun a => exists n, a_status a = status n) l /\
    writes l (image_new samples lines planes) (fun _ => None) = Ok (results, im, d).

(** ** C61 *)
(** [m] is the least (greatest) of a non-empty list of numbers. *)
Definition least (l : list double) (m : double) : Prop := In m l /\ forall x, In x l -> fle m x = true.
Definition greatest (l : list double) (m : double) : Prop := In m l /\ forall x, In x l -> fle x m = true.

(** The file has, in its first array, every one of [maps] in its place. *)
Definition holds_planes {t} (size : nat) (maps : list (list (ct t) * bool)) (d : disk datum) : Prop :=
  forall j m, nth_error maps j = Some m ->
    List.length (fst m) = size /\ occupies d (Z.of_nat j * Z.of_nat size) (stored (t := t) (fst m)).

(** ** C72 *)
(** The commands get to run: the configuration file was parsed or is missing,
    and so are the command line and every input file. *)
Definition ready (config : outcome Z) (enoent : bool) (cl : outcome bool) (parsed : list (outcome Z)) : Prop :=
  (config = Ok 0 \/ enoent = true /\ exists r, config = Ok r) /\ cl = Ok true /\ Forall (eq (Ok 0)) parsed.
