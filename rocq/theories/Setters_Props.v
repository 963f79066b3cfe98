(** C127: the settings of photos. *)
From Coq Require Import List ZArith.
From Verif Require Import Base Setters_Model Setters_Spec Setters_Proofs.
Import ListNotations.
Open Scope Z_scope.

(** C127: whatever setters are called, there is always a strategy of each kind: the
    last one given, or the default; a call throws exactly if it passes a null pointer
    and then changes nothing.  Each side has the number last given to it or to all
    sides. *)
Theorem C127_settings : forall (P I G : Type) (p : P) (i : I) (g : G) (l : list (setter P I G)),
  let s := fst (set_all l (settings_new p i g)) in
  (exists p', s_photometry s = Some p' /\ latest says_photometry p l p') /\
  (exists i', s_interpolation s = Some i' /\ latest says_interpolation i l i') /\
  (exists g', s_geometry s = Some g' /\ latest says_geometry g l g') /\
  latest says_left 0 l (s_left s) /\ latest says_right 0 l (s_right s) /\
  latest says_top 0 l (s_top s) /\ latest says_bottom 0 l (s_bottom s) /\ latest says_sky false l (s_remove_sky s) /\
  Forall2 (fun c threw => threw = true <-> passes_null c) l (snd (set_all l (settings_new p i g))).
Proof. intros P I G. exact setters_latest. Qed.
Print Assumptions C127_settings.

(** C127, what throws: the exception is std::invalid_argument. *)
Theorem C127_throws : forall (P I G : Type) (c : setter P I G) s,
  match set c s with Ok _ => ~ passes_null c | Throw e => e = invalid_argument /\ passes_null c | UB _ => False end.
Proof. intros P I G. exact set_throws. Qed.
Print Assumptions C127_throws.

(** A null pointer after a strategy, all sides after one. *)
Example C127_case : set_all [set_left 3; set_interpolation (Some 7); set_nibble 2; set_interpolation None; set_top 5]
    (settings_new tt 0 tt) =
  (Settings 2 2 5 2 (Some tt) (Some 7) false (Some tt), [false; false; false; true; false]).
Proof. reflexivity. Qed.
