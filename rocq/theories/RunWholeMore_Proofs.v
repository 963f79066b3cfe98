(** Proofs for C129. *)
From Coq Require Import List ZArith Reals Bool String Lia.
From Flocq Require Import Core BinarySingleNaN.
From Verif Require Import Base Flt Num LinAlg_Model Maths_Model Spheroid_Model Spheroid_Spec Extrema_Model MakeMap_Model MakeMap_Spec Proj_Model Proj_Spec Virtual_Model Virtual_Spec Params_Model
  Fits_Model Fits_Spec Command_Model Expr_Model Text_Model Cli_Model Cli_Spec Input_Model Entry_Model View_Model Parse_Model Parse_Spec Parse_Proofs Run_Model Run_Spec RunPlane_Proofs RunGrid_Spec
  RunMercator_Spec RunMercator_Proofs RunGrid_Proofs RunPolar_Spec RunPolarGrid_Spec RunPolarGrid_Proofs RunHeader_Spec RunHeader_Proofs Roots_Model Ortho_Model Ortho_Spec RunOrtho_Spec RunOrtho_Proofs
  Program_Model Program_Spec Program_Proofs RunWhole_Spec RunWhole_Proofs.
Import ListNotations.
Open Scope R_scope.
#[local] Existing Instance prec53.
#[local] Existing Instance emax53.

Section Whole.
Variables (strtod : text -> option double) (call : string -> double -> double) (pow : double -> double -> double).
Variables (X : outside) (h : host) (fuel : nat) (args : list string) (fs fs' : Program_Model.files).
Variables (u : option user_entry) (ts : list (map_entry * list map_entry)) (e : map_entry) (samples lines : Z).
Hypothesis S : successful strtod call pow X h fuel args fs fs' u ts e samples lines.

Local Notation planes := (Z.of_nat (List.length (me_plane e :: me_more_planes e))).

Lemma whole_command : exists cmds n m c w w', unmixed ts /\ commands_of X (texts u ts) = Ok (Some cmds) /\
  nth_error (maps_of ts) n = Some e /\ nth_error cmds n = Some m /\ fits_size m /\ mc_samples m = samples /\ mc_lines m = lines /\
  Z.of_nat (List.length (mc_images m)) = planes /\ params_of e = Some (mc_params m) /\
  command_of X fuel m = Some c /\ execute (cfitsio h) (leaves h) (removes h (me_file e)) c w = (w', Ok 0%Z) /\ fs' (me_file e) = w_file w'.
Proof.
  destruct S as [P [prog H] [files [M R]] F U [n [N La]] Sa Li [B1 B2]].
  destruct (run_entries strtod call pow X h P fuel prog args fs fs' files u ts H M F R U) as (cmds & K & Q & _).
  destruct (Q n e N La) as (m & c & w & w' & Nm & Fm & Cm & Ex & Fs).
  assert (K' := K). unfold commands_of in K'. apply run_means in K'; [|exact U]. destruct K' as (d0 & Hd & K').
  destruct (Forall2_nth_r _ _ _ K' n e N) as (m' & Nm' & Mm & _). assert (m' = m) as -> by congruence. unfold map_body in Mm.
  destruct (params_of e) as [pa|] eqn:Pa; cbn [obind] in Mm; [|discriminate].
  destruct (body_spheroid (me_prograde e) (me_radii e)) as [b| |] eqn:Hb; cbn [done obind] in Mm; try discriminate.
  exists cmds, n, m, c, w, w'.
  destruct (grid_says d0 e) as [g|] eqn:Hg; cbn [obind] in Mm; [|discriminate].
  destruct (projection_of _ _ _ _ b (me_projection e)) as [x|] eqn:Hx; cbn [obind] in Mm; [|discriminate].
  destruct (kept (positive_size (me_samples e))) as [sa|] eqn:Es; cbn [obind] in Mm; [|discriminate].
  destruct (kept (positive_size (me_lines e))) as [li|] eqn:El; cbn [obind] in Mm; [|discriminate].
  match type of Mm with obind ?y _ = _ => destruct y as [l|] eqn:Hf; cbn [obind] in Mm; [|discriminate] end.
  assert (Pos : forall n v, kept (positive_size n) = Some v -> (0 < v)%Z).
  { intros n0 v0 Kp. unfold positive_size, pbind in Kp. destruct (integer n0) as [z0| |]; try discriminate.
    destruct (Z.ltb_spec 0 z0); [|discriminate]. now injection Kp as <-. }
  assert (G1 := Pos _ _ Es). assert (G2 := Pos _ _ El).
  apply (size_read _ _ _ Sa) in Es. apply (size_read _ _ _ Li) in El. subst sa li.
  assert (Len : List.length l = List.length (me_plane e :: me_more_planes e)).
  { clear - Hf. revert l Hf. generalize (me_plane e :: me_more_planes e). intros l0. induction l0 as [|a l0 IH]; intros l H; cbn [all_some] in H.
    - now injection H as <-.
    - match type of H with context [obind ?y _] => destruct y; cbn [obind] in H; [|discriminate] end.
      match type of H with context [all_some ?g l0] => destruct (all_some g l0) as [ys|] eqn:E; cbn [obind] in H; [|discriminate] end.
      injection H as <-. cbn [List.length]. f_equal. now apply IH. }
  do 4 (split; [assumption|]).
  injection Mm as <-. unfold fits_size. cbn [mc_projection mc_images mc_params mc_samples mc_lines mc_grid mc_file] in *.
  split. { rewrite Len. auto. }
  split; [reflexivity|]. split; [reflexivity|]. split; [now rewrite Len|]. split; [reflexivity|]. auto.
Qed.

Theorem whole_header : exists b t cards d,
  bitpix_is X e b /\ type_of_bitpix b = Some t /\ header_says X e t cards /\
  let map_array := Hdu t (image_axes samples lines (plane_count e)) cards d in
  ((forall i, me_grid e <> Some (true, i)) /\ fs' (me_file e) = new_file [map_array] \/
   exists i dg, me_grid e = Some (true, i) /\
     fs' (me_file e) = new_file [map_array; Hdu U8 (image_axes samples lines 1) (grid_header e) dg]).
Proof.
  destruct whole_command as (cmds & n & m & c & w & w' & U & K & N & Nm & Fz & Es & El & Len & Pm & Cm & Ex & Fs).
  destruct (entry_header X fuel (cfitsio h) (leaves h) (removes h (me_file e)) u ts cmds n e U K N) as (m' & Nm' & _ & _ & Q).
  assert (m' = m) as -> by congruence. rewrite <- Es, <- El, Fs. exact (Q c w w' 0%Z Cm Ex).
Qed.

Variable d0 : defaults.
Hypothesis D0 : in_force u d0.
Hypothesis I : ieee X.
Hypothesis fine : forall n, cfitsio h n = 0%Z.

Theorem whole_grid lat lon : rounds_to_integer (x_libm X) -> me_projection e = T_simple_c None ->
  grid_says d0 e = Some (Some (lat, lon)) -> grid_step lat -> grid_step lon -> (samples * lines < 2 ^ 53)%Z ->
  exists h cards dd row col, fs' (me_file e) = new_file [h; Hdu U8 (image_axes samples lines 1) cards dd] /\
    lined samples lines (B2R lat) (B2R lon) row col dd /\
    rows_follow lines (B2R lat) row /\ columns_follow (me_prograde e) samples (B2R lon) col.
Proof.
  intros Rd Pr G G1 G2 Sm.
  destruct whole_command as (cmds & n & m & c & w & w' & U & K & N & Nm & Fz & Es & El & Len & Pm & Cm & Ex & Fs).
  destruct (grid_in_file X fuel (cfitsio h) (leaves h) (removes h (me_file e)) u d0 ts cmds n e I Rd fine D0 U K N Pr) as (m' & b & Nm' & Hb & Q).
  assert (m' = m) as -> by congruence. rewrite <- Es, <- El in Sm.
  specialize (Q lat lon c w w' 0%Z G G1 G2 Fz Sm Cm Ex). rewrite Es, El, <- Fs in Q.
  rewrite (rotation_kept _ _ _ Hb) in Q. exact Q.
Qed.

Theorem whole_polar_grid b o lat lon : rounds_to_integer (x_libm X) -> me_projection e = T_p_stereo o ->
  body_spheroid (me_prograde e) (me_radii e) = Ok b ->
  grid_says d0 e = Some (Some (lat, lon)) -> grid_step lat -> grid_step lon -> (samples * lines < 2 ^ 53)%Z ->
  exists edge h cards dd ring spoke, edge_says X b o edge /\
    fs' (me_file e) = new_file [h; Hdu U8 (image_axes samples lines 1) cards dd] /\
    dotted samples lines (B2R lat) (B2R lon) ring spoke dd /\
    let radius := stereo_rho_impl (A := ar_double) (x_libm X) (x_eccentricity X b)
                    (rho_coefficient (A := ar_double) (x_libm X) (Spheroid_Model.eq_rad b) (x_eccentricity X b)) in
    let rim : double := radius (seen_at (pole_says o) (x_graphic X b edge)) in
    rings_follow (x_libm X) radius (x_graphic X b) (pole_says o) rim samples lines (B2R lat) ring /\
    spokes_follow (x_libm X) radius (pole_says o) rim samples lines (B2R lon) spoke.
Proof.
  intros Rd Pr Hb G G1 G2 Sm.
  destruct whole_command as (cmds & n & m & c & w & w' & U & K & N & Nm & Fz & Es & El & Len & Pm & Cm & Ex & Fs).
  destruct (polar_grid_in_file X fuel (cfitsio h) (leaves h) (removes h (me_file e)) u d0 ts cmds n e o I Rd fine D0 U K N Pr) as (m' & b' & Nm' & Hb' & Q).
  assert (m' = m) as -> by congruence. assert (b' = b) as -> by congruence. rewrite <- Es, <- El in Sm.
  specialize (Q lat lon c w w' 0%Z G G1 G2 Fz Sm Cm Ex). rewrite Es, El, <- Fs in Q. exact Q.
Qed.

Hypothesis A : accurate (x_scale X).

Theorem whole_ortho_angles b o sub_lat sub_lon angle kpp c0 :
  close_library (x_libm X) -> (forall p q r, x_roots X p q r = double_roots p q r) ->
  me_projection e = T_ortho o -> body_spheroid (me_prograde e) (me_radii e) = Ok b ->
  projection_args (x_fmod X) (l_degree (x_libm X)) (x_centric X) b (T_ortho o) = Some (Orthographic b sub_lat sub_lon angle kpp c0) ->
  let eq := Spheroid_Model.eq_rad b in let pol := Spheroid_Model.pol_rad b in
  (lines < 2 ^ 52)%Z -> (samples < 2 ^ 52)%Z -> plain_view eq pol sub_lat kpp c0 ->
  exists phi lam pa k sc lc, sees sub_lat sub_lon angle phi lam pa /\
    resolution (B2R eq) (B2R kpp) samples lines k /\ center_at c0 samples lines sc lc /\
    forall j p, nth_error (me_plane e :: me_more_planes e) j = Some p -> limits_say d0 (pe_range p) = Some ex_empty ->
  (pe_type p = T_latitude None \/ pe_type p = T_latitude (Some Centric) \/ pe_type p = T_longitude) ->
  exists params0 blank t axes cards d rest, params_of e = Some params0 /\
    fs' (me_file e) = new_file (Hdu t axes cards d :: rest) /\
    (forall z, p_blank params0 = Some z -> blank = Some z) /\
    forall line i, (0 <= line < lines)%Z -> (0 <= i < samples)%Z ->
    let x := km k sc (IZR i + / 2) in let z := km k lc (IZR line + / 2) in
    exists v, d (position samples lines (Z.of_nat j) line i) = Some (existT _ t v) /\
     ((blank_of t blank = Some v /\ 1 - 1e-12 <= outline (B2R eq) (B2R pol) pa x z) \/
      exists lat lon y, is_seen (B2R eq) (B2R pol) (me_prograde e) phi lam pa x z lat lon /\
       stands_for t cards planes (Z.of_nat j + 1) v y /\
       (pe_type p <> T_longitude -> Rabs (y - lat * (180 / PI)) <= tolerance t latitude_plane + 1e-12) /\
       (pe_type p = T_longitude -> - tolerance t longitude_plane <= y <= 360 + tolerance t longitude_plane /\
        exists turns : Z, Rabs (y - (lon * (180 / PI) + 360 * IZR turns)) <= tolerance t longitude_plane + 1e-11)).
Proof.
  intros CL Rt Pr Hb Pa eq pol Tall Small V.
  destruct whole_command as (cmds & n & m & c & w & w' & U & K & N & Nm & Fz & Es & El & Len & Pm & Cm & Ex & Fs).
  destruct (ortho_map X fuel (cfitsio h) (leaves h) (removes h (me_file e)) u d0 ts cmds n e o I CL Rt fine A D0 U K N Pr)
    as (m' & b' & sub_lat' & sub_lon' & angle' & kpp' & c0' & Nm' & Hb' & Pa' & Q).
  assert (m' = m) as -> by congruence. assert (b' = b) as -> by congruence. rewrite Pa in Pa'. injection Pa' as <- <- <- <- <-.
  cbv zeta in Q. rewrite <- El in Tall. rewrite <- Es in Small. specialize (Q Fz Tall Small V c w w' 0%Z Cm Ex).
  unfold element in Q. rewrite (rotation_kept _ _ _ Hb), Es, El, Len, <- Fs in Q.
  destruct Q as (phi & lam & pa & k & sc & lc & V1 & V2 & V3 & Q). exists phi, lam, pa, k, sc, lc. do 3 (split; [assumption|]).
  intros j p J L T. destruct (Q j p J L T) as (params & t & axes & cards & d & rest & Po & _ & Hf & Q').
  exists (mc_params m), (p_blank params), t, axes, cards, d, rest. split; [exact Pm|]. split; [exact Hf|].
  split; [intros z0 Z0; exact (blank_kept _ _ _ _ Po Z0)|exact Q'].
Qed.
End Whole.
