(** The setters of MaRC::PhotoImageParameters and the setter of the geometric
    correction of MaRC::ViewingGeometry as operations on objects. *)
From Coq Require Import List ZArith.
From Verif Require Import Base.
Import ListNotations.
Open Scope Z_scope.

Section Setters.
(** Strategy objects; pointers to them are null or not.  The defaults are
    MARC_DEFAULT_PHOTO_CORR_STRATEGY, MARC_DEFAULT_INTERPOLATION_STRATEGY and
    MARC_DEFAULT_GEOM_CORR_STRATEGY. *)
Context {photometry interpolation geometry : Type}.
Context (null_photometry : photometry) (null_interpolation : interpolation) (null_geometry : geometry).

(** The members, lib/marc/PhotoImageParameters.h:153-177, and
    geometric_correction_, lib/marc/ViewingGeometry.h:494. *)
Record settings := Settings {
  s_left : Z; s_right : Z; s_top : Z; s_bottom : Z;
  s_photometry : option photometry; s_interpolation : option interpolation; s_remove_sky : bool;
  s_geometry : option geometry }.

(** Constructors, lib/marc/PhotoImageParameters.cpp:25-37 and
    lib/marc/ViewingGeometry.cpp:119-121. *)
Definition settings_new : settings :=
  Settings 0 0 0 0 (Some null_photometry) (Some null_interpolation) false (Some null_geometry).

Inductive setter :=
| set_photometry (p : option photometry) | set_interpolation (i : option interpolation) | set_geometry (g : option geometry)
| set_nibble (n : Z) | set_left (n : Z) | set_right (n : Z) | set_top (n : Z) | set_bottom (n : Z)
| set_remove_sky (b : bool).

(** lib/marc/PhotoImageParameters.cpp:39-133 and lib/marc/ViewingGeometry.cpp:124-134. *)
Definition set (c : setter) (s : settings) : outcome settings :=
  let '(Settings l r t b p i k g) := s in
  match c with
  | set_photometry None => Throw invalid_argument
  | set_photometry p => Ok (Settings l r t b p i k g)
  | set_interpolation None => Throw invalid_argument
  | set_interpolation i => Ok (Settings l r t b p i k g)
  | set_geometry None => Throw invalid_argument
  | set_geometry g => Ok (Settings l r t b p i k g)
  | set_nibble n => Ok (Settings n n n n p i k g)
  | set_left n => Ok (Settings n r t b p i k g)
  | set_right n => Ok (Settings l n t b p i k g)
  | set_top n => Ok (Settings l r n b p i k g)
  | set_bottom n => Ok (Settings l r t n p i k g)
  | set_remove_sky k => Ok (Settings l r t b p i k g)
  end.

(** Calls one after the other; the caller catches what is thrown.  An object is left
    as it is by a setter that throws: the throw comes before the assignment.  The
    results tell which calls threw. *)
Fixpoint set_all (l : list setter) (s : settings) : settings * list bool :=
  match l with
  | [] => (s, [])
  | c :: l =>
      match set c s with
      | Ok s' => let '(s', threw) := set_all l s' in (s', false :: threw)
      | _ => let '(s', threw) := set_all l s in (s', true :: threw)
      end
  end.
End Setters.
Arguments settings : clear implicits.
Arguments setter : clear implicits.
