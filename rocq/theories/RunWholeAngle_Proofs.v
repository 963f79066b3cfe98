(** Proofs for C128. *)
From Coq Require Import List ZArith Reals Bool String Lia.
From Flocq Require Import Core BinarySingleNaN.
From Verif Require Import Base Flt Num LinAlg_Model Maths_Model Spheroid_Model Spheroid_Spec Extrema_Model MakeMap_Model MakeMap_Spec Proj_Model Proj_Spec Virtual_Model Virtual_Spec Params_Model
  Fits_Model Fits_Spec Command_Model Expr_Model Text_Model Input_Model Entry_Model View_Model Parse_Model Parse_Spec Run_Model Run_Spec RunPlane_Proofs RunGrid_Spec
  Ortho_Model Ortho_Spec RunOrtho_Spec Body_Model Body_Spec RunGraphic_Spec RunGraphic_Proofs Program_Model RunWhole_Spec RunWhole_Proofs.
Import ListNotations.
Open Scope R_scope.
#[local] Existing Instance prec53.
#[local] Existing Instance emax53.

Section Whole.
Variables (strtod : text -> option double) (call : string -> double -> double) (pow : double -> double -> double).
Variables (X : outside) (h : host) (fuel : nat) (args : list string) (fs fs' : Program_Model.files).
Variables (u : option user_entry) (d0 : defaults) (ts : list (map_entry * list map_entry)) (e : map_entry) (samples lines : Z).
Hypothesis S : successful strtod call pow X h fuel args fs fs' u ts e samples lines.
Hypothesis D0 : in_force u d0.
Hypothesis I : ieee X.
Hypothesis A : accurate (x_scale X).
Hypothesis fine : forall n, cfitsio h n = 0%Z.

Local Notation args_of := (projection_args (x_fmod X) (l_degree (x_libm X)) (x_centric X)).
Local Notation planes := (Z.of_nat (List.length (me_plane e :: me_more_planes e))).
Variables (b : body) (lo hi lo' hi' : double) (j : nat) (p : plane_entry).
Hypothesis Hb : body_spheroid (me_prograde e) (me_radii e) = Ok b.
Hypothesis J : nth_error (me_plane e :: me_more_planes e) j = Some p.
Hypothesis Lim : limits_say d0 (pe_range p) = Some ex_empty.

Theorem whole_latitudes k0 : pe_type p = T_latitude k0 -> is_graphic k0 = false ->
  args_of b (me_projection e) = Some (SimpleCylindrical b lo hi lo' hi' false) ->
  IZR lines * 1e-9 <= Rabs (B2R hi - B2R lo) ->
  exists t axes cards d rest, fs' (me_file e) = new_file (Hdu t axes cards d :: rest) /\
  forall k i, (0 <= k < lines)%Z -> (0 <= i < samples)%Z ->
  exists v y, d (position samples lines (Z.of_nat j) k i) = Some (existT _ t v) /\
    stands_for t cards planes (Z.of_nat j + 1) v y /\
    Rabs (y - middle_latitude (B2R lo) (B2R hi) k lines) <= tolerance t latitude_plane + 1e-12.
Proof.
  intros T K Pa Tall.
  destruct (whole_entry strtod call pow X h fuel args fs fs' u d0 ts e samples lines S D0)
    as (m & c & w & w' & b' & FI & Fz & Es & El & Len & _ & Hb' & Pa' & Cm & Ex & Fs & Im).
  assert (b' = b) as -> by congruence. rewrite Pa in Pa'. injection Pa' as Pm. symmetry in Pm.
  destruct (Im j p J) as (f & Jf & Lf & Sf). rewrite Lim in Lf. injection Lf as Lf. rewrite T in Sf. cbn [source_of] in Sf. injection Sf as Sf. rewrite K in Sf.
  rewrite <- El in Tall.
  destruct (latitudes X fuel (cfitsio h) (leaves h) (removes h (me_file e)) m c w w' 0%Z j f b lo hi lo' hi' b
              I fine (input_ready X m FI) Fz A Cm Ex Pm Tall Jf (eq_sym Lf) (eq_sym Sf))
    as (params & t & axes & cards & d & rest & _ & _ & Hf & Q).
  exists t, axes, cards, d, rest. split; [congruence|]. unfold element in Q. rewrite Es, El, Len in Q. exact Q.
Qed.

Theorem whole_longitudes : pe_type p = T_longitude ->
  args_of b (me_projection e) = Some (SimpleCylindrical b lo hi lo' hi' false) ->
  (B2R lo' = B2R hi' \/ 1e-9 <= Rabs (B2R hi' - B2R lo')) -> (samples < 2 ^ 52)%Z ->
  exists t axes cards d rest, fs' (me_file e) = new_file (Hdu t axes cards d :: rest) /\
  forall k i, (0 <= k < lines)%Z -> (0 <= i < samples)%Z ->
  exists v y z, d (position samples lines (Z.of_nat j) k i) = Some (existT _ t v) /\
    stands_for t cards planes (Z.of_nat j + 1) v y /\
    - tolerance t longitude_plane <= y <= 360 + tolerance t longitude_plane /\
    Rabs (y - (middle_longitude (prograde b) (B2R lo') (B2R hi') i samples + 360 * IZR z)) <= tolerance t longitude_plane + 1e-11.
Proof.
  intros T Pa Apart Small.
  destruct (whole_entry strtod call pow X h fuel args fs fs' u d0 ts e samples lines S D0)
    as (m & c & w & w' & b' & FI & Fz & Es & El & Len & _ & Hb' & Pa' & Cm & Ex & Fs & Im).
  assert (b' = b) as -> by congruence. rewrite Pa in Pa'. injection Pa' as Pm. symmetry in Pm.
  destruct (Im j p J) as (f & Jf & Lf & Sf). rewrite Lim in Lf. injection Lf as Lf. rewrite T in Sf. cbn [source_of] in Sf. injection Sf as Sf.
  rewrite <- Es in Small.
  destruct (longitudes X fuel (cfitsio h) (leaves h) (removes h (me_file e)) m c w w' 0%Z j f b lo hi lo' hi'
              I fine (input_ready X m FI) Fz A Cm Ex Pm Apart Small Jf (eq_sym Lf) (eq_sym Sf))
    as (params & t & axes & cards & d & rest & _ & _ & Hf & Q).
  exists t, axes, cards, d, rest. split; [congruence|]. unfold element in Q. rewrite Es, El, Len in Q. exact Q.
Qed.

Theorem whole_graphic arctan k0 : good_library (x_libm X) arctan -> spheroids X arctan -> size_of b ->
  pe_type p = T_latitude k0 ->
  args_of b (me_projection e) = Some (SimpleCylindrical b lo hi lo' hi' true) ->
  IZR lines * 1e-9 <= Rabs (B2R hi - B2R lo) -> (B2R lo' = B2R hi' \/ 1e-9 <= Rabs (B2R hi' - B2R lo')) -> (samples < 2 ^ 52)%Z ->
  exists t axes cards d rest, fs' (me_file e) = new_file (Hdu t axes cards d :: rest) /\
  forall k i, (0 <= k < lines)%Z -> (0 <= i < samples)%Z ->
  forall g1 g2 lat, normal_latitude b (radians (B2R lo)) g1 -> normal_latitude b (radians (B2R hi)) g2 ->
  normal_latitude b lat (middle_latitude g1 g2 k lines) ->
  forall g, (if is_graphic k0 then normal_latitude b lat (radians g) else lat = radians g) ->
  exists v y, d (position samples lines (Z.of_nat j) k i) = Some (existT _ t v) /\
    stands_for t cards planes (Z.of_nat j + 1) v y /\ Rabs (y - g) <= tolerance t latitude_plane + 4e-11.
Proof.
  intros GL SP BS T Pa Tall Apart Small.
  destruct (whole_entry strtod call pow X h fuel args fs fs' u d0 ts e samples lines S D0)
    as (m & c & w & w' & b' & FI & Fz & Es & El & Len & _ & Hb' & Pa' & Cm & Ex & Fs & Im).
  assert (b' = b) as -> by congruence. rewrite Pa in Pa'. injection Pa' as Pm. symmetry in Pm.
  destruct (Im j p J) as (f & Jf & Lf & Sf). rewrite Lim in Lf. injection Lf as Lf. rewrite T in Sf. cbn [source_of] in Sf. injection Sf as Sf.
  rewrite <- El in Tall. rewrite <- Es in Small.
  destruct (graphic_latitudes X arctan fuel (cfitsio h) (leaves h) (removes h (me_file e)) m c w w' 0%Z j f b lo hi lo' hi' b (is_graphic k0)
              I GL SP fine (input_ready X m FI) Fz A Cm Ex Pm BS Tall Apart Small Jf (eq_sym Lf) (eq_sym Sf) BS)
    as (params & t & axes & cards & d & rest & _ & _ & Hf & Q).
  exists t, axes, cards, d, rest. split; [congruence|]. unfold element in Q. rewrite Es, El, Len in Q. exact Q.
Qed.
End Whole.
