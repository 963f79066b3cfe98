(** Proofs for C130. *)
From Coq Require Import List ZArith Reals Bool String.
From Flocq Require Import Core BinarySingleNaN.
From Verif Require Import Base Flt Num LinAlg_Model Maths_Model Spheroid_Model Extrema_Model MakeMap_Model Proj_Model Virtual_Model Virtual_Spec Params_Model
  Fits_Model Command_Model Expr_Model Text_Model Cli_Model Cli_Spec Input_Model Entry_Model View_Model Parse_Model Parse_Spec Run_Model Run_Spec RunGrid_Spec RunPlane_Proofs RunMercator_Spec RunMercator_Proofs RunPolar_Spec RunPolar_Proofs
  Program_Model Program_Spec Program_Proofs RunWhole_Spec RunWhole_Proofs RunWholeMore_Proofs.
Import ListNotations.
Open Scope R_scope.
#[local] Existing Instance prec53.
#[local] Existing Instance emax53.

Theorem whole_mercator strtod call pow X h fuel args fs fs' u d0 ts e samples lines b o :
  successful strtod call pow X h fuel args fs fs' u ts e samples lines -> in_force u d0 ->
  ieee X -> (forall n, cfitsio h n = 0%Z) -> accurate (x_scale X) ->
  l_pi (x_libm X) = d_pi -> me_projection e = T_mercator o -> body_spheroid (me_prograde e) (me_radii e) = Ok b ->
  (lines < 2 ^ 52)%Z -> (samples < 2 ^ 52)%Z ->
  forall j p, nth_error (me_plane e :: me_more_planes e) j = Some p -> limits_say d0 (pe_range p) = Some ex_empty ->
  (pe_type p = T_longitude ->
   exists t axes cards d rest, fs' (me_file e) = new_file (Hdu t axes cards d :: rest) /\
   forall k i, (0 <= k < lines)%Z -> (0 <= i < samples)%Z ->
   exists v y z, d (position samples lines (Z.of_nat j) k i) = Some (existT _ t v) /\
     stands_for t cards (Z.of_nat (List.length (me_plane e :: me_more_planes e))) (Z.of_nat j + 1) v y /\
     - tolerance t longitude_plane <= y <= 360 + tolerance t longitude_plane /\
     Rabs (y - (circle_longitude (prograde b) i samples + 360 * IZR z)) <= tolerance t longitude_plane + 1e-11) /\
  (pe_type p = T_latitude None \/ pe_type p = T_latitude (Some Centric) ->
   exists t axes cards d rest, fs' (me_file e) = new_file (Hdu t axes cards d :: rest) /\
   forall k, (0 <= k < lines)%Z -> exists x latg,
     is_finite x = true /\
     Rabs (B2R x - line_ordinate k samples lines) <= 2e-14 * (IZR lines / IZR samples) /\
     x_find X x (neg (A := ar_double) d_pi2) d_pi2 (mercator_x (A := ar_double) (x_libm X) (x_eccentricity X b)) = Ok latg /\
     let lat := x_centric X b latg in
     is_finite lat = true -> Rabs (B2R lat) <= B2R d_pi2 ->
     forall i, (0 <= i < samples)%Z ->
     exists v y, d (position samples lines (Z.of_nat j) k i) = Some (existT _ t v) /\
       stands_for t cards (Z.of_nat (List.length (me_plane e :: me_more_planes e))) (Z.of_nat j + 1) v y /\
       Rabs (y - B2R lat / B2R d_degree) <= tolerance t latitude_plane + 1e-12).
Proof.
  intros S D0 I fine A Hpi Pr Hb Tall Small j p J Lim.
  destruct (whole_entry strtod call pow X h fuel args fs fs' u d0 ts e samples lines S D0)
    as (m & c & w & w' & b' & FI & Fz & Es & El & Len & _ & Hb' & Pa' & Cm & Ex & Fs & Im).
  assert (b' = b) as -> by congruence. rewrite Pr in Pa'. cbn [projection_args] in Pa'. injection Pa' as Pm. symmetry in Pm.
  destruct (Im j p J) as (f & Jf & Lf & Sf). rewrite Lim in Lf. injection Lf as Lf. rewrite <- El in Tall. rewrite <- Es in Small.
  split.
  - intros T. rewrite T in Sf. cbn [source_of] in Sf. injection Sf as Sf.
    destruct (mercator_longitudes X fuel (cfitsio h) (leaves h) (removes h (me_file e)) m c w w' 0%Z j f b I fine (input_ready X m FI) Fz A Cm Ex Pm Small Jf (eq_sym Lf) (eq_sym Sf))
      as (params & t & axes & cards & d & rest & _ & _ & Hf & Q).
    exists t, axes, cards, d, rest. split; [congruence|]. unfold element in Q. rewrite Es, El, Len in Q. exact Q.
  - intros T. assert (Sf' : if_source f = F_latitude b false) by (destruct T as [T|T]; rewrite T in Sf; now injection Sf as <-).
    destruct (mercator_latitudes X fuel (cfitsio h) (leaves h) (removes h (me_file e)) m c w w' 0%Z j f b b I Hpi fine (input_ready X m FI) Fz A Cm Ex Pm Small Tall Jf (eq_sym Lf) Sf')
      as (params & t & axes & cards & d & rest & _ & _ & Hf & Q).
    exists t, axes, cards, d, rest. split; [congruence|]. unfold element in Q. rewrite Es, El, Len in Q.
    intros k Hk. destruct (Q k Hk) as (x & latg & Fx & Nx & Fd & Cells).
    exists x, latg. split; [exact Fx|]. split; [exact Nx|]. split; [exact Fd|]. cbv zeta in *. intros Fl Bl i Hi.
    destruct (Cells i Hi) as (v & Ev & St & _). destruct (St Fl Bl) as (y & Sy & Ny). exists v, y. auto.
Qed.

Theorem whole_polar strtod call pow X h fuel args fs fs' u d0 ts e samples lines b o :
  successful strtod call pow X h fuel args fs fs' u ts e samples lines -> in_force u d0 ->
  ieee X -> (forall n, cfitsio h n = 0%Z) -> accurate (x_scale X) ->
  me_projection e = T_p_stereo o -> body_spheroid (me_prograde e) (me_radii e) = Ok b ->
  (lines < 2 ^ 52)%Z -> (samples < 2 ^ 52)%Z ->
  forall j p, nth_error (me_plane e :: me_more_planes e) j = Some p -> limits_say d0 (pe_range p) = Some ex_empty ->
  (pe_type p = T_longitude ->
   exists t axes cards d rest, fs' (me_file e) = new_file (Hdu t axes cards d :: rest) /\
   forall k i, (0 <= k < lines)%Z -> (0 <= i < samples)%Z ->
   exists side up, is_number side (sideways (pole_says o) (prograde b) i samples) /\ is_number up (from_center k lines) /\
   let a : double := l_atan2 (x_libm X) side up in
   (is_finite a = true -> Rabs (B2R a) <= 4 ->
    exists v y z, d (position samples lines (Z.of_nat j) k i) = Some (existT _ t v) /\
     stands_for t cards (Z.of_nat (List.length (me_plane e :: me_more_planes e))) (Z.of_nat j + 1) v y /\
     - tolerance t longitude_plane <= y <= 360 + tolerance t longitude_plane /\
     Rabs (y - (B2R a / B2R d_degree + 360 * IZR z)) <= tolerance t longitude_plane + 1e-11)) /\
  (pe_type p = T_latitude None \/ pe_type p = T_latitude (Some Centric) ->
   exists edge t axes cards d rest, edge_says X b o edge /\ fs' (me_file e) = new_file (Hdu t axes cards d :: rest) /\
   let radius := stereo_rho_impl (A := ar_double) (x_libm X) (x_eccentricity X b)
                   (rho_coefficient (A := ar_double) (x_libm X) (Spheroid_Model.eq_rad b) (x_eccentricity X b)) in
   let rim : double := radius (seen_at (pole_says o) (x_graphic X b edge)) in
   forall k i, (0 <= k < lines)%Z -> (0 <= i < samples)%Z ->
   exists side up rho latg,
     is_number side (from_center i samples) /\ is_number up (from_center k lines) /\
     (let h : double := l_hypot (x_libm X) side up in
      is_finite rim = true -> 1e-3 <= B2R rim <= 1e12 -> is_finite h = true -> B2R h = 0 \/ / 4 <= B2R h <= 1e16 ->
      is_finite rho = true /\
      Rabs (B2R rho - cell_radius (B2R rim) (B2R h) samples lines) <=
        1e-15 * cell_radius (B2R rim) (B2R h) samples lines) /\
     x_find X rho (neg (A := ar_double) d_pi2) d_pi2 radius = Ok latg /\
     let lat := x_centric X b (seen_at (pole_says o) latg) in
     (is_finite lat = true -> Rabs (B2R lat) <= B2R d_pi2 ->
      exists v y, d (position samples lines (Z.of_nat j) k i) = Some (existT _ t v) /\
       stands_for t cards (Z.of_nat (List.length (me_plane e :: me_more_planes e))) (Z.of_nat j + 1) v y /\
       Rabs (y - B2R lat / B2R d_degree) <= tolerance t latitude_plane + 1e-12)).
Proof.
  intros S D0 I fine A Pr Hb Tall Small.
  destruct (whole_command strtod call pow X h fuel args fs fs' u ts e samples lines S) as (cmds & n & m & c & w & w' & U & K & N & Nm & Fz & Es & El & Len & Pm & Cm & Ex & Fs).
  destruct (polar_map X fuel (cfitsio h) (leaves h) (removes h (me_file e)) u d0 ts cmds n e o I fine A D0 U K N Pr) as (m' & b' & Nm' & Hb' & Q).
  assert (m' = m) as -> by congruence. assert (b' = b) as -> by congruence. rewrite <- El in Tall. rewrite <- Es in Small.
  specialize (Q c w w' 0%Z Fz Tall Small Cm Ex). unfold element in Q. rewrite Es, El, Len, <- Fs in Q. exact Q.
Qed.
