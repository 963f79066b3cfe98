(** Proofs for C126. *)
From Coq Require Import List ZArith Reals Bool String Lia.
From Flocq Require Import Core BinarySingleNaN.
From Verif Require Import Base Flt Num LinAlg_Model Maths_Model Spheroid_Model Spheroid_Spec Extrema_Model MakeMap_Model MakeMap_Spec Proj_Model Proj_Spec Virtual_Model Virtual_Spec Params_Model
  Fits_Model Fits_Spec Command_Model Expr_Model Text_Model Cli_Model Cli_Spec Input_Model Entry_Model View_Model Parse_Model Parse_Spec Parse_Proofs Run_Model Run_Spec RunPlane_Proofs RunGrid_Spec RunMercator_Proofs RunGrid_Proofs
  RunHeader_Spec RunHeader_Proofs Roots_Model Ortho_Model Ortho_Spec RunOrtho_Spec RunOrtho_Proofs
  Body_Model Body_Spec RunBody_Proofs Program_Model Program_Spec Program_Proofs RunWhole_Spec.
Import ListNotations.
Open Scope R_scope.
#[local] Existing Instance prec53.
#[local] Existing Instance emax53.

Section Whole.
Variables (strtod : text -> option double) (call : string -> double -> double) (pow : double -> double -> double).
Variables (X : outside) (h : host) (fuel : nat) (args : list string) (fs fs' : Program_Model.files).
Variables (u : option user_entry) (d0 : defaults) (ts : list (map_entry * list map_entry)) (e : map_entry) (samples lines : Z).
Hypothesis S : successful strtod call pow X h fuel args fs fs' u ts e samples lines.
Hypothesis D0 : in_force u d0.

Local Notation args_of := (projection_args (x_fmod X) (l_degree (x_libm X)) (x_centric X)).
Local Notation source := (source_of (x_fmod X) (l_degree (x_libm X)) (x_centric X) (x_au X) (opens X) (refuses X)).

Lemma whole_entry : exists m c w w' b, from_input X m /\ fits_size m /\ mc_samples m = samples /\ mc_lines m = lines /\
  List.length (mc_images m) = List.length (me_plane e :: me_more_planes e) /\
  params_of e = Some (mc_params m) /\ body_spheroid (me_prograde e) (me_radii e) = Ok b /\ args_of b (me_projection e) = Some (mc_projection m) /\
  command_of X fuel m = Some c /\ execute (cfitsio h) (leaves h) (removes h (me_file e)) c w = (w', Ok 0%Z) /\ fs' (me_file e) = w_file w' /\
  forall j p, nth_error (me_plane e :: me_more_planes e) j = Some p ->
  exists f, nth_error (mc_images m) j = Some f /\ limits_say d0 (pe_range p) = Some (if_limits f) /\
    source d0 b (average_of (me_projection e)) (pe_type p) = Some (if_source f).
Proof.
  destruct S as [P [prog H] [files [M R]] F U [n [N La]] Sa Li [B1 B2]].
  destruct (run_entries strtod call pow X h P fuel prog args fs fs' files u ts H M F R U) as (cmds & K & Q & _).
  destruct (Q n e N La) as (m & c & w & w' & Nm & Fm & Cm & Ex & Fs).
  assert (K' := K). unfold commands_of in K'. apply run_means in K'; [|exact U]. destruct K' as (d & Hd & K').
  pose proof (force_defaults u d0 D0) as Dd. rewrite Hd in Dd. injection Dd as ->.
  destruct (Forall2_nth_r _ _ _ K' n e N) as (m' & Nm' & Mm & _). assert (m' = m) as -> by congruence. unfold map_body in Mm.
  destruct (params_of e) as [pa|] eqn:Pa; cbn [obind] in Mm; [|discriminate].
  destruct (body_spheroid (me_prograde e) (me_radii e)) as [b| |] eqn:Hb; cbn [done obind] in Mm; try discriminate.
  exists m, c, w, w', b. split. { exists u, ts, cmds. split; [exact K|]. eapply nth_error_In. exact Nm. }
  destruct (grid_says d0 e) as [g|] eqn:Hg; cbn [obind] in Mm; [|discriminate].
  destruct (projection_of _ _ _ _ b (me_projection e)) as [x|] eqn:Hx; cbn [obind] in Mm; [|discriminate].
  destruct (kept (positive_size (me_samples e))) as [sa|] eqn:Es; cbn [obind] in Mm; [|discriminate].
  destruct (kept (positive_size (me_lines e))) as [li|] eqn:El; cbn [obind] in Mm; [|discriminate].
  match type of Mm with obind ?y _ = _ => destruct y as [l|] eqn:Hf; cbn [obind] in Mm; [|discriminate] end.
  assert (Pos : forall n v, kept (positive_size n) = Some v -> (0 < v)%Z).
  { intros n0 v0 Kp. unfold positive_size, pbind in Kp. destruct (integer n0) as [z0| |]; try discriminate.
    destruct (Z.ltb_spec 0 z0); [|discriminate]. now injection Kp as <-. }
  assert (G1 := Pos _ _ Es). assert (G2 := Pos _ _ El).
  apply (size_read _ _ _ Sa) in Es. apply (size_read _ _ _ Li) in El. subst sa li.
  assert (Len : List.length l = List.length (me_plane e :: me_more_planes e)).
  { clear - Hf. revert l Hf. generalize (me_plane e :: me_more_planes e). intros l0. induction l0 as [|a l0 IH]; intros l H; cbn [all_some] in H.
    - now injection H as <-.
    - match type of H with context [obind ?y _] => destruct y; cbn [obind] in H; [|discriminate] end.
      match type of H with context [all_some ?g l0] => destruct (all_some g l0) as [ys|] eqn:E; cbn [obind] in H; [|discriminate] end.
      injection H as <-. cbn [List.length]. f_equal. now apply IH. }
  injection Mm as <-. unfold fits_size. cbn [mc_projection mc_images mc_params mc_samples mc_lines mc_grid mc_file] in *.
  split. { rewrite Len. auto. }
  split; [reflexivity|]. split; [reflexivity|]. split; [exact Len|]. split; [reflexivity|]. split; [reflexivity|].
  split. { unfold projection_of in Hx. destruct (args_of b (me_projection e)) as [y|]; cbn [obind] in Hx; [|discriminate].
    destruct (nothing_thrown (constructs X y)); [exact Hx|discriminate]. }
  split; [exact Cm|]. split; [exact Ex|]. split; [exact Fs|].
  intros j p J. destruct (all_some_nth _ _ _ _ _ Hf J) as (f & Pf & Jf). exists f. split; [exact Jf|].
  unfold plane_of in Pf. destruct (limits_say d0 (pe_range p)) as [ex|] eqn:Hl; cbn [obind] in Pf; [|discriminate].
  destruct (source d0 b (average_of (me_projection e)) (pe_type p)) as [s|] eqn:Hs; cbn [obind] in Pf; [|discriminate]. injection Pf as <-.
  cbn [if_limits if_source]. split; reflexivity.
Qed.

Hypothesis I : ieee X.
Hypothesis A : accurate (x_scale X).
Hypothesis fine : forall n, cfitsio h n = 0%Z.
Variable arctan : double -> double.
Hypothesis GL : good_library (x_libm X) arctan.
Hypothesis SP : spheroids X arctan.
Local Notation planes := (Z.of_nat (List.length (me_plane e :: me_more_planes e))).

Theorem whole_cylindrical b lo hi lo' hi' j p src pl :
  body_spheroid (me_prograde e) (me_radii e) = Ok b ->
  args_of b (me_projection e) = Some (SimpleCylindrical b lo hi lo' hi' false) ->
  IZR lines * 1e-9 <= Rabs (B2R hi - B2R lo) -> (B2R lo' = B2R hi' \/ 1e-9 <= Rabs (B2R hi' - B2R lo')) -> (samples < 2 ^ 52)%Z ->
  nth_error (me_plane e :: me_more_planes e) j = Some p -> limits_say d0 (pe_range p) = Some ex_empty ->
  source d0 b (average_of (me_projection e)) (pe_type p) = Some src -> cosine_plane src = Some pl ->
  exists t axes cards d rest, fs' (me_file e) = new_file (Hdu t axes cards d :: rest) /\
  forall k i, (0 <= k < lines)%Z -> (0 <= i < samples)%Z ->
  forall far cosine err, 0 < far ->
  shows_cosine (spherical far (radians (middle_latitude (B2R lo) (B2R hi) k lines)) (radians (middle_longitude (prograde b) (B2R lo') (B2R hi') i samples)))
    1e-13 src cosine err ->
  exists v y, d (position samples lines (Z.of_nat j) k i) = Some (existT _ t v) /\
    stands_for t cards planes (Z.of_nat j + 1) v y /\ Rabs (y - cosine) <= tolerance t pl + err.
Proof.
  intros Hb Pa Tall Apart Small J Lim Src Cp.
  destruct whole_entry as (m & c & w & w' & b' & FI & Fz & Es & El & Len & _ & Hb' & Pa' & Cm & Ex & Fs & Im).
  assert (b' = b) as -> by congruence. rewrite Pa in Pa'. injection Pa' as Pm. symmetry in Pm.
  destruct (Im j p J) as (f & Jf & Lf & Sf). rewrite Lim in Lf. injection Lf as Lf. rewrite Src in Sf. injection Sf as ->.
  rewrite <- El in Tall. rewrite <- Es in Small.
  destruct (cylindrical_cosines X arctan fuel (cfitsio h) (leaves h) (removes h (me_file e)) m c w w' 0%Z j f pl b lo hi lo' hi'
              I GL SP fine (input_ready X m FI) Fz A Cm Ex Pm Tall Apart Small Jf (eq_sym Lf) Cp)
    as (params & t & axes & cards & d & rest & _ & _ & Hf & Q).
  exists t, axes, cards, d, rest. split; [congruence|]. unfold element in Q. rewrite Es, El, Len in Q. exact Q.
Qed.

Hypothesis CL : close_library (x_libm X).
Hypothesis Rt : forall p q r, x_roots X p q r = double_roots p q r.

Lemma blank_kept sources p q z : populate_map_parameters sources p = Ok q -> p_blank p = Some z -> p_blank q = Some z.
Proof.
  intros H B. pose proof (sources_standard _ _ _ H) as F. unfold populate_map_parameters in H.
  destruct (params_new 0) as [w| |] eqn:E0; cbn [bind] in H; try discriminate.
  destruct (Params_Proofs.populate_planes_merged sources F 1 [] w ltac:(lia) (Params_Proofs.merged_start _ _ (Params_Proofs.given_new _ _ E0))) as (q0 & Q & M).
  rewrite Q in H. cbn [bind] in H. rewrite app_nil_l in M. destruct M as [(RS & RD & RB & RN & RC & RX) _ _ _ _ _ _]. cbn in RN.
  assert (V : p_bitpix q0 = 0%Z \/ valid_bitpix (p_bitpix q0) = true).
  { rewrite RN. match goal with |- context [match ?f with Some _ => _ | None => _ end] => destruct f as [b|] eqn:Ef end; [|auto].
    apply Params_Proofs.first_some in Ef. destruct Ef as [x Ef]. apply Params_Proofs.last_bitpix in Ef. tauto. }
  destruct (Params_Proofs.merge_spec p q0 V) as (t & p' & E & _ & _ & _ & _ & Bl & _). rewrite E in H. cbn [bind] in H. injection H as <-.
  rewrite Bl, B. destruct (p_blank q0); reflexivity.
Qed.

Theorem whole_orthographic (b : body) sub_lat sub_lon angle kpp c0 j p src pl :
  body_spheroid (me_prograde e) (me_radii e) = Ok b ->
  args_of b (me_projection e) = Some (Orthographic b sub_lat sub_lon angle kpp c0) ->
  let eq := Spheroid_Model.eq_rad b in let pol := Spheroid_Model.pol_rad b in
  plain_view eq pol sub_lat kpp c0 -> (lines < 2 ^ 52)%Z -> (samples < 2 ^ 52)%Z ->
  nth_error (me_plane e :: me_more_planes e) j = Some p -> limits_say d0 (pe_range p) = Some ex_empty ->
  source d0 b (average_of (me_projection e)) (pe_type p) = Some src -> cosine_plane src = Some pl ->
  exists phi lam pa k sc lc, sees sub_lat sub_lon angle phi lam pa /\
  resolution (B2R eq) (B2R kpp) samples lines k /\ center_at c0 samples lines sc lc /\
  exists params0 blank t axes cards d rest, params_of e = Some params0 /\
    fs' (me_file e) = new_file (Hdu t axes cards d :: rest) /\
    (forall z, p_blank params0 = Some z -> blank = Some z) /\
    forall line i, (0 <= line < lines)%Z -> (0 <= i < samples)%Z ->
    let x := km k sc (IZR i + / 2) in let z := km k lc (IZR line + / 2) in
    exists v, d (position samples lines (Z.of_nat j) line i) = Some (existT _ t v) /\
     ((blank_of t blank = Some v /\ 1 - 1e-12 <= outline (B2R eq) (B2R pol) pa x z) \/
      exists lat lon, is_seen (B2R eq) (B2R pol) (prograde b) phi lam pa x z lat lon /\
       forall far cosine err, 0 < far -> shows_cosine (spherical far lat lon) 1e-14 src cosine err ->
       exists y, stands_for t cards planes (Z.of_nat j + 1) v y /\ Rabs (y - cosine) <= tolerance t pl + err).
Proof.
  intros Hb Pa eq pol V Tall Small J Lim Src Cp.
  destruct whole_entry as (m & c & w & w' & b' & FI & Fz & Es & El & Len & Hp & Hb' & Pa' & Cm & Ex & Fs & Im).
  assert (b' = b) as -> by congruence. rewrite Pa in Pa'. injection Pa' as Pm. symmetry in Pm.
  destruct (Im j p J) as (f & Jf & Lf & Sf). rewrite Lim in Lf. injection Lf as Lf. rewrite Src in Sf. injection Sf as ->.
  rewrite <- El in Tall. rewrite <- Es in Small.
  destruct (orthographic_cosines X arctan fuel (cfitsio h) (leaves h) (removes h (me_file e)) m c w w' 0%Z j f pl b sub_lat sub_lon angle kpp c0
              I CL GL Rt SP fine (input_ready X m FI) Fz A Cm Ex Pm V Tall Small Jf (eq_sym Lf) Cp)
    as (phi & lam & pa & k & sc & lc & V1 & V2 & V3 & params & t & axes & cards & d & rest & Po & _ & Hf & Q).
  unfold element in Q. rewrite Es, El, Len in *.
  exists phi, lam, pa, k, sc, lc. split; [exact V1|]. split; [exact V2|]. split; [exact V3|].
  exists (mc_params m), (p_blank params), t, axes, cards, d, rest. split; [exact Hp|]. split; [congruence|].
  split; [intros z0 Z0; exact (blank_kept _ _ _ _ Po Z0)|exact Q].
Qed.
End Whole.
