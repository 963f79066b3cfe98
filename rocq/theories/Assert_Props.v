(** C122: the assertions of the planes MU, MU0 and PHASE. *)
From Coq Require Import List ZArith Reals Bool String.
From Flocq Require Import Core BinarySingleNaN.
From Verif Require Import Base Flt Num LinAlg_Model Maths_Model Spheroid_Model Spheroid_Spec Extrema_Model MakeMap_Model MakeMap_Spec Proj_Model Virtual_Model Virtual_Spec Params_Model
  Fits_Model Fits_Spec Command_Model Input_Model Entry_Model Parse_Model Parse_Spec Run_Model Run_Spec RunCase_Proofs Ortho_Spec RunOrtho_Spec
  Body_Model Body_Spec BodyCase_Proofs Assert_Proofs.
Import ListNotations.
Open Scope R_scope.

(** C122: a map whose computed cosine is above 1.  The functions are the real ones,
    rounded to the nearest double; the map is in an input file; CFITSIO never fails;
    yet no execution comes to an end as it should. *)
Theorem C122_assertion_refuted : exists m c f, ieee real_program /\ good_library (x_libm real_program) real_arctan /\ spheroids real_program real_arctan /\
  accurate (x_scale real_program) /\ commands_of real_program (texts None [(sunlit, [])]) = Ok (Some [m]) /\ fits_size m /\ mc_images m = [f] /\
  (exists b lat lon, if_source f = F_mu0 b lat lon /\ size_of b /\ angle lat 90 /\ angle lon 360) /\
  command_of real_program 0 m = Some c /\
  forall status left_over removable w w' r, (forall n, status n = 0%Z) -> execute status left_over removable c w <> (w', Ok r).
Proof. exact assertion_fails. Qed.
Print Assumptions C122_assertion_refuted.
(** With series in doubles the run ends in the assertion; with the sun at 10 degrees
    north it does not. *)
Example C122_refuted_case : ends series_program (sun_at 16 8) = Some (UB ub_assert) /\ ends series_program (sun_at 20 10) = Some (Ok tt).
Proof. split; vm_compute; reflexivity. Qed.

(** C122, in part: where the cosine of the geometry is at least as far from -1 and 1
    as the error may be, the assertion holds and the datum is that cosine to within
    the error.  Missing: the cells whose cosine is closer to -1 or 1, for which it is
    false. *)
Theorem C122_assertion_partial : forall X arctan s pl physical (q : double * double) off rla rlo far cosine e,
  ieee X -> good_library (x_libm X) arctan -> spheroids X arctan -> computes X s pl physical ->
  5e-15 <= off <= 1e-6 -> upon off (fst q) rla -> toward off (snd q) rlo -> 0 < far ->
  shows_cosine (spherical far rla rlo) off s cosine e -> Rabs cosine <= 1 - e ->
  exists data : double, physical (fst q) (snd q) = Ok (Some data) /\ nearly data cosine e.
Proof. exact assertion_holds. Qed.
Print Assumptions C122_assertion_partial.
(** The two outcomes of the assertion. *)
Example C122_case : checked_cosine (A := ar_double) (dlit 1 (-1)) = Ok (Some (dlit 1 (-1))) /\
  checked_cosine (A := ar_double) (of_parts 4503599627370497 (-52)) = UB ub_assert /\
  ieee real_program /\ good_library (x_libm real_program) real_arctan /\ spheroids real_program real_arctan.
Proof.
  split.
  { unfold checked_cosine. match goal with |- (if ?c then _ else _) = _ => replace c with true by (symmetry; vm_compute; reflexivity) end. reflexivity. }
  split; [vm_compute; reflexivity|]. split; [exact real_ieee|]. split; [exact good_1|exact real_spheroids].
Qed.
