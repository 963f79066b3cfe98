(** Specification vocabulary for C127. *)
From Coq Require Import List ZArith.
From Verif Require Import Base Setters_Model.
Import ListNotations.
Open Scope Z_scope.

(** The last of [l] that says something says [v]; [v] is [initial] if none does. *)
Inductive latest {C V} (says : C -> option V) (initial : V) : list C -> V -> Prop :=
| latest_none l : Forall (fun c => says c = None) l -> latest says initial l initial
| latest_said before c after v : says c = Some v -> Forall (fun c => says c = None) after ->
    latest says initial (before ++ c :: after) v.

Section Says.
Context {P I G : Type}.
Local Notation setter := (setter P I G).
Definition says_photometry (c : setter) : option P := match c with set_photometry p => p | _ => None end.
Definition says_interpolation (c : setter) : option I := match c with set_interpolation i => i | _ => None end.
Definition says_geometry (c : setter) : option G := match c with set_geometry g => g | _ => None end.
Definition says_left (c : setter) : option Z := match c with set_nibble n | set_left n => Some n | _ => None end.
Definition says_right (c : setter) : option Z := match c with set_nibble n | set_right n => Some n | _ => None end.
Definition says_top (c : setter) : option Z := match c with set_nibble n | set_top n => Some n | _ => None end.
Definition says_bottom (c : setter) : option Z := match c with set_nibble n | set_bottom n => Some n | _ => None end.
Definition says_sky (c : setter) : option bool := match c with set_remove_sky b => Some b | _ => None end.
(** Calls with a null pointer. *)
Definition passes_null (c : setter) : Prop := c = set_photometry None \/ c = set_interpolation None \/ c = set_geometry None.
End Says.
