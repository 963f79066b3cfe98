(** Proofs for C117 and C118. *)
From Coq Require Import List ZArith Reals Bool String Lra Lia Psatz.
From Flocq Require Import Core BinarySingleNaN.
From Verif Require Import Base BaseFacts Flt FltFacts Num LinAlg_Model Maths_Model Spheroid_Model Spheroid_Spec Spheroid_Proofs Extrema_Model Extrema_Spec MakeMap_Model MakeMap_Spec MakeMap_Proofs
  Proj_Model Proj_Spec Proj_Proofs Virtual_Model Virtual_Spec Virtual_Proofs VirtualPlane_Proofs Params_Model
  Fits_Model Fits_Spec Command_Model Command_Spec Command_Proofs Input_Model Entry_Model Entry_Proofs Parse_Model Parse_Spec Parse_Proofs
  Run_Model Run_Spec RunAngle_Proofs RunScale_Proofs Run_Proofs RunPlane_Proofs PiBound_Proofs Roots_Model Ortho_Spec RunOrtho_Spec RunOrtho_Proofs Body_Model Body_Spec BodyDouble_Proofs.
Import ListNotations.
Open Scope R_scope.

#[local] Existing Instance prec53.
#[local] Existing Instance emax53.
Local Ltac abs H := apply Rabs_le_inv in H.

Theorem body_functions L arctan (eq pol : double) w (la lo : double) rla rlo r :
  good_library L arctan -> body_size eq pol -> 0 <= w <= 1e-6 -> upon w la rla -> toward w lo rlo -> 0 < r ->
  let Re := B2R eq in let Rp := B2R pol in let p := spherical r rla rlo in on_spheroid Re Rp p ->
  nearly (double_radius L eq pol la) r ((7e-15 + 4 * w) * Re) /\
  (exists g, nearly (double_graphic L arctan eq pol la) g (3e-15 + 4 * w) /\ exists k, 0 < k /\ gradient Re Rp p = vscale (spherical 1 g rlo) k) /\
  (exists c r' k, nearly (double_centric L arctan eq pol la) c (3e-15 + 4 * w) /\ 0 < r' /\ 0 < k /\
   let p' := spherical r' c rlo in on_spheroid Re Rp p' /\ gradient Re Rp p' = vscale (spherical 1 rla rlo) k) /\
  (forall sla slo rsla rslo, toward w sla rsla -> toward w slo rslo ->
   nearly (double_mu0 L arctan eq pol sla slo la lo) (angle_cosine (gradient Re Rp p) (spherical 1 rsla rslo)) (2e-14 + 13 * w)) /\
  (forall ola olo rola rolo range, toward w ola rola -> toward w olo rolo -> distance range eq ->
   nearly (double_mu L arctan eq pol ola olo la lo range) (angle_cosine (gradient Re Rp p) (minus3 (spherical (B2R range) rola rolo) p)) (1e-12 + 500 * w)) /\
  (forall ola olo rola rolo sla slo rsla rslo range, toward w ola rola -> toward w olo rolo -> toward w sla rsla -> toward w slo rslo -> distance range eq ->
   nearly (double_cos_phase L eq pol ola olo sla slo la lo range)
     (angle_cosine (spherical 1 rsla rslo) (minus3 (spherical (B2R range) rola rolo) p)) (1e-12 + 500 * w)).
Proof.
  intros GL BS Hw U T Hr Re Rp p On. destruct (ratio_bounds eq pol BS) as (_ & _ & E0 & P0). pose proof BS as (_ & _ & _ & [Hle _] & _).
  assert (Er : r = centric_radius Re Rp rla) by (apply (radius_unique Re Rp P0 Hle r rla rlo Hr On)).
  pose proof U as (_ & Hla & _). assert (Hla' : - (PI / 2) <= rla <= PI / 2) by lra.
  split. { destruct (radius_near L arctan GL w Hw eq pol BS la rla U) as (F & _ & E). rewrite Er. split; assumption. }
  split. { exists (graphic_latitude Re Rp rla). split; [exact (proj1 (graphic_near L arctan GL w eq pol BS la rla U))|].
    destruct (gradient_normal Re Rp P0 Hle r rla rlo Hla') as (t & Ht & E). exists (r * t). split; [apply Rmult_lt_0_compat; assumption|exact E]. }
  split. { pose proof (Spheroid_Proofs.latitudes Re Rp P0 Hle rla Hla') as LL.
    set (c := centric_latitude Re Rp rla). exists c, (centric_radius Re Rp c).
    assert (Bc : - (PI / 2) <= c <= PI / 2) by (apply ktan_bound; exact Hla').
    destruct (gradient_normal Re Rp P0 Hle (centric_radius Re Rp c) c rlo Bc) as (t & Ht & E).
    exists (centric_radius Re Rp c * t). pose proof (radius_pos Re Rp P0 Hle c).
    split; [exact (proj1 (centric_near L arctan GL w eq pol BS la rla U))|]. split; [assumption|]. split; [apply Rmult_lt_0_compat; assumption|].
    split; [apply radius_on; assumption|].
    replace (graphic_latitude Re Rp c) with rla in E; [exact E|]. symmetry. unfold c. apply LL. }
  split. { intros. unfold p. rewrite Er, <- (mu0_is_cosine Re Rp P0 Hle) by exact Hla'. apply mu0_near; assumption. }
  split. { intros. unfold p. rewrite Er, <- (mu_is_cosine Re Rp P0 Hle) by exact Hla'. apply mu_near; assumption. }
  intros. unfold p. rewrite Er, <- (cos_phase_is_cosine Re Rp). apply cos_phase_near with (arctan := arctan); assumption.
Qed.

Lemma plotted_computed X fuel status left_over removable m c w w' r j f p physical :
  (forall n, status n = 0%Z) -> ready_command m -> fits_size m -> accurate (x_scale X) ->
  command_of X fuel m = Some c -> execute status left_over removable c w = (w', Ok r) ->
  nth_error (mc_images m) j = Some f -> if_limits f = ex_empty -> computes X (if_source f) p physical ->
  forall k i q, (0 <= k < mc_lines m)%Z -> (0 <= i < mc_samples m)%Z -> plotted (mc_samples m) (c_calls c) k i q ->
  exists o, physical (fst q) (snd q) = Ok o.
Proof.
  intros Hs R Fs A C E J Hl Hp k i q Hk Hi Q.
  destruct (elements X fuel status left_over removable m c w w' r Hs R Fs C E)
    as (params & t & axes & cards & d & rest & o & Pp & Pt & Pf & Pc & El).
  destruct (El j f J) as (image & ex & before & after & Mk & Hc & Cells). clear El.
  rewrite (make_computed X f t p physical Hp Hl) in Mk. unfold computed in Mk.
  assert (N : ~ (t = U8 /\ p = longitude_plane)).
  { intros [-> ->]. rewrite longitude_bytes in Mk. discriminate. }
  destruct (made_plane (x_scale X) t p A N) as (s & z & ex' & sv & ov & MV & M). rewrite MV in Mk. cbn [bind] in Mk.
  apply Ok_inj in Mk. injection Mk as <- <-.
  destruct (Cells _ _ (made_limits _ _ _ _ _ _ _ M)) as (blank & Bl & Cell). clear Cells.
  assert (Sz : map_size (mc_samples m) (mc_lines m)).
  { destruct Fs as (S1 & S2 & S3 & S4). assert (1 <= Z.of_nat (List.length (mc_images m)))%Z by (destruct (mc_images m); [destruct j; discriminate|cbn; lia]).
    assert (mc_samples m * mc_lines m < 2 ^ 63 - 1)%Z by nia. unfold map_size. nia. }
  destruct (calls_spec X _ _ _ _ _ Sz Pc) as [IO _].
  destruct (Cell k i Hk Hi) as (v & Ev & Sh). cbn [si_read] in Sh.
  destruct Sh as [(q' & x' & Q' & Rd & _)|(_ & Sh)].
  - assert (q' = q) as -> by (eapply one_point; [exact IO|exact Q'|exact Q]).
    unfold read_virtual in Rd. destruct (physical (fst q) (snd q)) as [o'| |]; [exists o'; reflexivity|discriminate Rd|discriminate Rd].
  - destruct (Sh q Q) as (ok & x' & Rd & _).
    unfold read_virtual in Rd. destruct (physical (fst q) (snd q)) as [o'| |]; [exists o'; reflexivity|discriminate Rd|discriminate Rd].
Qed.

Lemma checked (data : double) o : checked_cosine (A := ar_double) data = Ok o -> o = Some data /\ is_finite data = true /\ -1 <= B2R data <= 1.
Proof.
  unfold checked_cosine. intros H. change (a_of_Z ar_double (-1)) with (double_of_Z (-1)) in H. change (a_of_Z ar_double 1) with (double_of_Z 1) in H.
  match type of H with (if ?b then _ else _) = _ => destruct b eqn:E end; [|discriminate H].
  apply Ok_inj in H. split; [symmetry; exact H|]. apply andb_true_iff in E. destruct E as [E1 E2].
  destruct (double_of_Z_exact (-1) ltac:(lia)) as [F1 V1]. destruct (double_of_Z_exact 1 ltac:(lia)) as [F2 V2].
  assert (F : is_finite data = true).
  { destruct data as [?|[]| |? ? ? ?]; try reflexivity; exfalso.
    - destruct (double_of_Z (-1)); try discriminate F1; discriminate E1.
    - destruct (double_of_Z 1); try discriminate F2; discriminate E2.
    - destruct (double_of_Z (-1)); try discriminate F1; discriminate E1. }
  split; [exact F|]. rewrite Entry_Proofs.le_double in E1, E2 by assumption. rewrite V1 in E1. rewrite V2 in E2.
  split; [revert E1|revert E2]; case Rle_bool_spec; intros; [assumption|discriminate|assumption|discriminate].
Qed.

Lemma cosine_at X arctan (s : source_factory) pl physical (q : double * double) ph off rla rlo far cosine e :
  ieee X -> good_library (x_libm X) arctan -> spheroids X arctan -> cosine_plane s = Some pl -> computes X s pl physical ->
  physical (fst q) (snd q) = Ok ph -> 5e-15 <= off <= 1e-6 -> upon off (fst q) rla -> toward off (snd q) rlo -> 0 < far ->
  shows_cosine (spherical far rla rlo) off s cosine e ->
  exists data : double, ph = Some data /\ is_finite data = true /\ plane_range pl (B2R data) /\ Rabs (B2R data - cosine) <= e.
Proof.
  intros I GL SP Hpl Cm Ph Hoff U T Hfar Sh.
  assert (Sub : forall x : double, angle x 360 -> toward off (Bmult mode_NE x d_degree) (radians (B2R x))).
  { intros x [Fx Bx]. destruct (radians_pi x Fx Bx) as (Fr & Er & Br). split; [exact Fr|]. split; lra. }
  assert (Dg : l_degree (x_libm X) = d_degree) by apply I.
  assert (Pr : forall x : double, -1 <= B2R x <= 1 -> plane_range pl (B2R x)).
  { intros x Hx. destruct s; try discriminate Hpl; injection Hpl as <-; exact Hx. }
  cut (exists data : double, ph = Some data /\ is_finite data = true /\ -1 <= B2R data <= 1 /\ Rabs (B2R data - cosine) <= e).
  { intros (data & P1 & P2 & P3 & P4). exists data. split; [exact P1|]. split; [exact P2|]. split; [exact (Pr _ P3)|exact P4]. }
  { destruct Sh as [b lat lon range Sz A1 A2 D On|b lat lon Sz A1 A2 On|b lat lon slat slon range Sz A1 A2 A3 A4 D On].
    - injection Hpl as <-. inversion Cm; subst; clear Cm. unfold mu_data in Ph. destruct (checked _ _ Ph) as (-> & Fd & Bd).
      eexists. split; [reflexivity|]. split; [exact Fd|]. split; [exact Bd|]. destruct (SP b) as (_ & _ & Em & _). rewrite Em, Dg. cbn [a_mul ar_double].
      destruct (body_functions (x_libm X) arctan (Spheroid_Model.eq_rad b) (Spheroid_Model.pol_rad b) off (fst q) (snd q) rla rlo far GL Sz ltac:(lra) U T Hfar On) as (_ & _ & _ & _ & M & _).
      apply (M _ _ _ _ range (Sub lat A1) (Sub lon A2) D).
    - injection Hpl as <-. inversion Cm; subst; clear Cm. unfold mu0_data in Ph. destruct (checked _ _ Ph) as (-> & Fd & Bd).
      eexists. split; [reflexivity|]. split; [exact Fd|]. split; [exact Bd|]. destruct (SP b) as (_ & _ & _ & Em & _). rewrite Em, Dg. cbn [a_mul ar_double].
      destruct (body_functions (x_libm X) arctan (Spheroid_Model.eq_rad b) (Spheroid_Model.pol_rad b) off (fst q) (snd q) rla rlo far GL Sz ltac:(lra) U T Hfar On) as (_ & _ & _ & M & _).
      apply (M _ _ _ _ (Sub lat A1) (Sub lon A2)).
    - injection Hpl as <-. inversion Cm; subst; clear Cm. unfold cos_phase_data in Ph. destruct (checked _ _ Ph) as (-> & Fd & Bd).
      eexists. split; [reflexivity|]. split; [exact Fd|]. split; [exact Bd|]. destruct (SP b) as (_ & _ & _ & _ & Em). rewrite Em, Dg. cbn [a_mul ar_double].
      destruct (body_functions (x_libm X) arctan (Spheroid_Model.eq_rad b) (Spheroid_Model.pol_rad b) off (fst q) (snd q) rla rlo far GL Sz ltac:(lra) U T Hfar On) as (_ & _ & _ & _ & _ & M).
      apply (M _ _ _ _ _ _ _ _ range (Sub lat A1) (Sub lon A2) (Sub slat A3) (Sub slon A4) D). }
Qed.

Theorem cosines X arctan fuel status left_over removable m c w w' r j f pl :
  ieee X -> good_library (x_libm X) arctan -> spheroids X arctan ->
  (forall n, status n = 0%Z) -> ready_command m -> fits_size m -> accurate (x_scale X) ->
  command_of X fuel m = Some c -> execute status left_over removable c w = (w', Ok r) ->
  nth_error (mc_images m) j = Some f -> if_limits f = ex_empty -> cosine_plane (if_source f) = Some pl ->
  exists params t axes cards d rest o,
    populate_map_parameters (map (parameters_of X) (mc_images m)) (mc_params m) = Ok params /\
    type_of_bitpix (p_bitpix params) = Some t /\
    w_file w' = new_file (Hdu t axes cards d :: rest) /\
    calls_of X (mc_projection m) (mc_samples m) (mc_lines m) = (c_calls c, Ok o) /\
    forall k i q, (0 <= k < mc_lines m)%Z -> (0 <= i < mc_samples m)%Z -> plotted (mc_samples m) (c_calls c) k i q ->
    forall off rla rlo far cosine e, 5e-15 <= off <= 1e-6 -> upon off (fst q) rla -> toward off (snd q) rlo -> 0 < far ->
    shows_cosine (spherical far rla rlo) off (if_source f) cosine e ->
    exists v y, d (element m (Z.of_nat j) k i) = Some (existT _ t v) /\
      stands_for t cards (Z.of_nat (List.length (mc_images m))) (Z.of_nat j + 1) v y /\ Rabs (y - cosine) <= tolerance t pl + e.
Proof.
  intros I GL SP Hs R Fs A C E J Hl Hpl.
  assert (Cm : exists physical, computes X (if_source f) pl physical).
  { destruct (if_source f); try discriminate Hpl; injection Hpl as <-; eexists; constructor. }
  destruct Cm as [physical Cm].
  destruct (computed_plane X fuel status left_over removable m c w w' r j f pl physical Hs R Fs A C E J Hl Cm)
    as (params & t & axes & cards & d & rest & o & Pp & Pt & Pf & Pc & Cell).
  exists params, t, axes, cards, d, rest, o. repeat (split; [assumption|]).
  intros k i q Hk Hi Q off rla rlo far cosine e Hoff U T Hfar Sh.
  destruct (Cell k i q Hk Hi Q) as (v & Ev & V & _). exists v.
  destruct (plotted_computed X fuel status left_over removable m c w w' r j f pl physical Hs R Fs A C E J Hl Cm k i q Hk Hi Q) as [ph Ph].
  destruct (cosine_at X arctan (if_source f) pl physical q ph off rla rlo far cosine e I GL SP Hpl Cm Ph Hoff U T Hfar Sh) as (data & -> & Fd & Bd & Ed).
  destruct (V data Ph Fd Bd) as (y & St & Ey). exists y. split; [exact Ev|]. split; [exact St|].
  replace (y - cosine) with (y - B2R data + (B2R data - cosine)) by ring. eapply Rle_trans; [apply Rabs_triang|]. lra.
Qed.

(** ** Simple cylindrical maps *)
Lemma middle_turn (lo hi : R) (pro : bool) i samples : Rabs lo <= 360 -> Rabs hi <= 360 -> (0 <= i < samples)%Z ->
  Rabs (middle_longitude pro lo hi i samples) <= 720.
Proof.
  intros A B I. abs A. abs B. pose proof (fraction_01 i samples I) as F. unfold middle_longitude. set (f := fraction i samples) in *.
  assert (G : forall w e, -720 <= w <= 720 -> -720 <= e <= 720 -> Rabs (e - f * (e - w)) <= 720 /\ Rabs (w + f * (e - w)) <= 720).
  { intros w e W E. assert (0 <= f * (w + 720)) by (apply Rmult_le_pos; lra). assert (0 <= f * (e + 720)) by (apply Rmult_le_pos; lra).
    assert (0 <= (1 - f) * (w + 720)) by (apply Rmult_le_pos; lra). assert (0 <= (1 - f) * (e + 720)) by (apply Rmult_le_pos; lra).
    assert (0 <= f * (720 - w)) by (apply Rmult_le_pos; lra). assert (0 <= f * (720 - e)) by (apply Rmult_le_pos; lra).
    assert (0 <= (1 - f) * (720 - w)) by (apply Rmult_le_pos; lra). assert (0 <= (1 - f) * (720 - e)) by (apply Rmult_le_pos; lra).
    split; apply Rabs_le; lra. }
  unfold longitude_ends. destruct (Rcompare hi lo); destruct pro; apply G; lra.
Qed.

Lemma cell_angles X m o calls b (lo hi lo' hi' : double) : ieee X -> map_size (mc_samples m) (mc_lines m) -> (mc_samples m < 2 ^ 52)%Z ->
  mc_projection m = SimpleCylindrical b lo hi lo' hi' false -> IZR (mc_lines m) * 1e-9 <= Rabs (B2R hi - B2R lo) ->
  (B2R lo' = B2R hi' \/ 1e-9 <= Rabs (B2R hi' - B2R lo')) ->
  calls_of X (mc_projection m) (mc_samples m) (mc_lines m) = (calls, Ok o) ->
  forall k i, (0 <= k < mc_lines m)%Z -> (0 <= i < mc_samples m)%Z -> exists q, plotted (mc_samples m) calls k i q /\
  upon 1e-14 (fst q) (radians (middle_latitude (B2R lo) (B2R hi) k (mc_lines m))) /\
  toward 1e-13 (snd q) (radians (middle_longitude (prograde b) (B2R lo') (B2R hi') i (mc_samples m))).
Proof.
  intros I Sz Small P Tall Apart Pc k i Hk Hi. rewrite P in Pc. cbn [calls_of] in Pc.
  destruct (simple_cyl_new _ _ _ _ _ _ _) as [q| |] eqn:Q; try discriminate.
  destruct (simple_cyl_validated _ _ _ _ _ _ _ Q) as ((F1 & B1) & (F2 & B2) & (F1' & B1') & (F2' & B2')).
  pose proof (sc_point ar_double _ _ _ _ _ _ _ Sz Pc k i Hk Hi) as Pl. cbv zeta in Pl.
  assert (QV : sc_graphic q = false /\ sc_lo_lat q = Bmult mode_NE lo d_degree /\ sc_hi_lat q = Bmult mode_NE hi d_degree).
  { unfold simple_cyl_new, boundary_latitude, validate_latitude, validate_longitude in Q. rewrite (i_degree X I) in Q.
    repeat (destruct (_ || _) in Q; [discriminate|]; cbn [bind] in Q).
    repeat match type of Q with context [if ?b then _ else _] => destruct b end; try discriminate; cbn [bind] in Q;
      apply Ok_inj in Q; subst q; auto. }
  destruct QV as (G & V1 & V2). rewrite G, V1, V2 in Pl.
  destruct (ends_computed lo' hi' F1' F2' B1' B2' Apart (x_libm X) _ _ _ _ (i_degree X I) (i_2pi X I) (i_eps X I) (i_tiny X I) Q) as (En & _).
  destruct (cell_longitude (prograde b) lo' hi' q i (mc_samples m) B1' B2' En Hi Small) as (Fl & Nl & _). cbv zeta in Fl, Nl.
  pose proof (middle_turn _ _ (prograde b) i (mc_samples m) B1' B2' Hi) as Mb.
  destruct (RunAngle_Proofs.latitude_near lo hi k (mc_lines m) F1 F2 B1 B2 Hk Tall) as (Fa & Na & Ba).
  pose proof (latitude_margin lo hi k (mc_lines m) B1 B2 Hk Tall) as Mg.
  eexists. split; [exact Pl|]. cbn [fst snd]. clear Pl Pc Q En.
  pose proof degree_pi as DP. pose proof u_value as UV. pose proof pi_between as PB.
  fold (middle_latitude (B2R lo) (B2R hi) k (mc_lines m)) in Na, Mg.
  set (rl := middle_latitude _ _ _ _) in *. set (rm := middle_longitude _ _ _ _ _) in *.
  assert (Rr : forall x D, Rabs x <= D -> Rabs (x * B2R d_degree - radians x) <= D * 1e-17).
  { intros x D Hx. unfold radians. replace (x * B2R d_degree - x * (PI / 180)) with (x * (B2R d_degree - PI / 180)) by field. rewrite Rabs_mult.
    apply Rmult_le_compat; try apply Rabs_pos; assumption. }
  split.
  - split; [split; [exact Fa|exact Ba]|]. assert (Hrl : Rabs rl <= 90 - 1e-10) by lra. split.
    + abs Hrl. unfold radians. assert (0 < PI) by lra. split; left; apply Rmult_lt_reg_r with 180; try lra.
      * replace (rl * (PI / 180) * 180) with (rl * PI) by field. replace (- (PI / 2) * 180) with (-90 * PI) by field. apply Rmult_lt_compat_r; lra.
      * replace (rl * (PI / 180) * 180) with (rl * PI) by field. replace (PI / 2 * 180) with (90 * PI) by field. apply Rmult_lt_compat_r; lra.
    + pose proof (Rr rl 90 ltac:(lra)) as R1. abs R1. abs Na. rewrite UV in Na. apply Rabs_le. cbn [a_add a_mul a_sub a_div a_of_Z half ar_double] in *. lra.
  - split; [exact Fl|]. pose proof (Rr rm 720 Mb) as R1. abs R1. abs Nl. rewrite UV in Nl.
    assert (R2 : Rabs (radians rm) <= 12.6).
    { unfold radians. rewrite Rabs_mult, (Rabs_pos_eq (PI / 180)) by lra.
      apply Rle_trans with (720 * (PI / 180)); [apply Rmult_le_compat_r; lra|]. lra. }
    abs R2. cbn [a_div a_sub a_of_Z ar_double] in *. split; apply Rabs_le; lra.
Qed.

Lemma upon_weaken w w' la rla : upon w la rla -> w <= w' -> upon w' la rla.
Proof. intros (A & B & C) H. split; [exact A|]. split; [exact B|]. lra. Qed.

Theorem cylindrical_cosines X arctan fuel status left_over removable m c w w' r j f pl b lo hi lo' hi' :
  ieee X -> good_library (x_libm X) arctan -> spheroids X arctan ->
  (forall n, status n = 0%Z) -> ready_command m -> fits_size m -> accurate (x_scale X) ->
  command_of X fuel m = Some c -> execute status left_over removable c w = (w', Ok r) ->
  mc_projection m = SimpleCylindrical b lo hi lo' hi' false -> IZR (mc_lines m) * 1e-9 <= Rabs (B2R hi - B2R lo) ->
  (B2R lo' = B2R hi' \/ 1e-9 <= Rabs (B2R hi' - B2R lo')) -> (mc_samples m < 2 ^ 52)%Z ->
  nth_error (mc_images m) j = Some f -> if_limits f = ex_empty -> cosine_plane (if_source f) = Some pl ->
  exists params t axes cards d rest,
    populate_map_parameters (map (parameters_of X) (mc_images m)) (mc_params m) = Ok params /\
    type_of_bitpix (p_bitpix params) = Some t /\
    w_file w' = new_file (Hdu t axes cards d :: rest) /\
    forall k i, (0 <= k < mc_lines m)%Z -> (0 <= i < mc_samples m)%Z ->
    forall far cosine e, 0 < far ->
    shows_cosine (spherical far (radians (middle_latitude (B2R lo) (B2R hi) k (mc_lines m))) (radians (middle_longitude (prograde b) (B2R lo') (B2R hi') i (mc_samples m))))
      1e-13 (if_source f) cosine e ->
    exists v y, d (element m (Z.of_nat j) k i) = Some (existT _ t v) /\
      stands_for t cards (Z.of_nat (List.length (mc_images m))) (Z.of_nat j + 1) v y /\ Rabs (y - cosine) <= tolerance t pl + e.
Proof.
  intros I GL SP Hs R Fs A C E P Tall Apart Small J Hl Hpl.
  destruct (cosines X arctan fuel status left_over removable m c w w' r j f pl I GL SP Hs R Fs A C E J Hl Hpl)
    as (params & t & axes & cards & d & rest & o & Pp & Pt & Pf & Pc & Cell).
  exists params, t, axes, cards, d, rest. repeat (split; [assumption|]). intros k i Hk Hi far cosine e Hfar Sh.
  destruct (command_size m j f Fs J) as [Sz _].
  destruct (cell_angles X m o (c_calls c) b lo hi lo' hi' I Sz Small P Tall Apart Pc k i Hk Hi) as (q & Q & U & T).
  apply (Cell k i q Hk Hi Q 1e-13 _ _ far cosine e ltac:(lra) (upon_weaken _ 1e-13 _ _ U ltac:(lra)) T Hfar Sh).
Qed.

Theorem cylindrical_graphic X arctan fuel status left_over removable m c w w' r j f b lo hi lo' hi' b' :
  ieee X -> good_library (x_libm X) arctan -> spheroids X arctan ->
  (forall n, status n = 0%Z) -> ready_command m -> fits_size m -> accurate (x_scale X) ->
  command_of X fuel m = Some c -> execute status left_over removable c w = (w', Ok r) ->
  mc_projection m = SimpleCylindrical b lo hi lo' hi' false -> IZR (mc_lines m) * 1e-9 <= Rabs (B2R hi - B2R lo) ->
  (B2R lo' = B2R hi' \/ 1e-9 <= Rabs (B2R hi' - B2R lo')) -> (mc_samples m < 2 ^ 52)%Z ->
  nth_error (mc_images m) j = Some f -> if_limits f = ex_empty -> if_source f = F_latitude b' true -> size_of b' ->
  exists params t axes cards d rest,
    populate_map_parameters (map (parameters_of X) (mc_images m)) (mc_params m) = Ok params /\
    type_of_bitpix (p_bitpix params) = Some t /\
    w_file w' = new_file (Hdu t axes cards d :: rest) /\
    forall k i, (0 <= k < mc_lines m)%Z -> (0 <= i < mc_samples m)%Z ->
    exists v y g, d (element m (Z.of_nat j) k i) = Some (existT _ t v) /\
      stands_for t cards (Z.of_nat (List.length (mc_images m))) (Z.of_nat j + 1) v y /\ Rabs (y - g) <= tolerance t latitude_plane + 3e-12 /\
      forall far rlo, 0 < far -> let p := spherical far (radians (middle_latitude (B2R lo) (B2R hi) k (mc_lines m))) rlo in
      on_spheroid (real_eq b') (real_pol b') p -> exists n, 0 < n /\ gradient (real_eq b') (real_pol b') p = vscale (spherical 1 (radians g) rlo) n.
Proof.
  intros I GL SP Hs R Fs A C E P Tall Apart Small J Hl Hf Hb.
  assert (Cm : computes X (if_source f) latitude_plane (latitude_data (A := ar_double) (x_libm X) (x_graphic X b') true)).
  { rewrite Hf. constructor. }
  destruct (computed_plane X fuel status left_over removable m c w w' r j f _ _ Hs R Fs A C E J Hl Cm)
    as (params & t & axes & cards & d & rest & o & Pp & Pt & Pf & Pc & Cell).
  exists params, t, axes, cards, d, rest. repeat (split; [assumption|]). intros k i Hk Hi.
  destruct (command_size m j f Fs J) as [Sz _].
  destruct (cell_angles X m o (c_calls c) b lo hi lo' hi' I Sz Small P Tall Apart Pc k i Hk Hi) as (q & Q & U & T).
  destruct (Cell k i q Hk Hi Q) as (v & Ev & V & _).
  set (rla := radians _) in *. unfold size_of in Hb. pose proof Hb as BS.
  set (eq := Spheroid_Model.eq_rad b' : double) in *. set (pol := Spheroid_Model.pol_rad b' : double) in *.
  destruct (graphic_near (x_libm X) arctan GL 1e-14 eq pol BS (fst q) rla U) as ([Fg Eg] & Bg).
  destruct (ratio_bounds eq pol BS) as (_ & _ & E0 & P0). pose proof BS as (_ & _ & _ & [Hle _] & _).
  pose proof U as ([Fl Bl] & Hla & _).
  destruct (SP b') as (Eq & _). cbv zeta in Eq. fold eq pol in Eq.
  destruct (latitude_double_range (x_libm X) (x_graphic X b') true (fst q) (snd q) (i_pi2 X I) (i_degree X I) (finite_not_nan _ Fl)) as [Rg _].
  { intros _ _. rewrite Eq. split; [exact Fg|exact Bg]. }
  destruct (Rg (conj Fl Bl)) as (x & Ex & Fx & Bx).
  destruct (V x Ex Fx Bx) as (y & Sy & Ny).
  assert (Ed : x = Bdiv mode_NE (double_graphic (x_libm X) arctan eq pol (fst q)) d_degree).
  { unfold latitude_data in Ex. rewrite (i_degree X I) in Ex. destruct (_ || _) in Ex; [discriminate|]. cbv zeta iota in Ex. rewrite Eq in Ex. symmetry.
    now injection Ex. }
  set (G := graphic_latitude (B2R eq) (B2R pol) rla) in *. set (g := G * (180 / PI)).
  pose proof pi_between as PB. assert (Gg : radians g = G) by (unfold radians, g; field; lra).
  exists v, y, g. split; [exact Ev|]. split; [exact Sy|]. split.
  - assert (BG : - (PI / 2) <= G <= PI / 2) by (apply ktan_bound; lra).
    assert (Bgg : Rabs g <= 90).
    { apply Rabs_le. split; apply Rmult_le_reg_r with (PI / 180); try lra.
      - replace (g * (PI / 180)) with G by (unfold g; field; lra). lra.
      - replace (g * (PI / 180)) with G by (unfold g; field; lra). lra. }
    assert (Nd : Rabs (B2R (double_graphic (x_libm X) arctan eq pol (fst q)) - g * B2R d_degree) <= 4.5e-14).
    { pose proof degree_pi as DP. assert (R1 : Rabs (g * (B2R d_degree - PI / 180)) <= 90 * 1e-17) by (rewrite Rabs_mult; apply Rmult_le_compat; try apply Rabs_pos; assumption).
      abs R1. abs Eg. rewrite <- Gg in Eg. unfold radians in Eg. apply Rabs_le. lra. }
    destruct (degrees_near _ g _ 90 Fg Nd ltac:(lia) ltac:(lra) ltac:(lra)) as [_ N]. rewrite <- Ed in N. rewrite u_value in N. abs N. abs Ny. apply Rabs_le. lra.
  - intros far rlo Hfar On. rewrite Gg.
    destruct (gradient_normal (B2R eq) (B2R pol) P0 Hle far rla rlo ltac:(lra)) as (n & Hn & En). exists (far * n). split; [apply Rmult_lt_0_compat; assumption|exact En].
Qed.

(** ** Orthographic maps *)
Theorem orthographic_cosines X arctan fuel status left_over removable m c w w' r j f pl (b : body) sub_lat sub_lon position kpp c0 :
  ieee X -> close_library (x_libm X) -> good_library (x_libm X) arctan -> (forall p q r, x_roots X p q r = double_roots p q r) -> spheroids X arctan ->
  (forall n, status n = 0%Z) -> ready_command m -> fits_size m -> accurate (x_scale X) ->
  command_of X fuel m = Some c -> execute status left_over removable c w = (w', Ok r) ->
  mc_projection m = Orthographic b sub_lat sub_lon position kpp c0 ->
  let eq := Spheroid_Model.eq_rad b in let pol := Spheroid_Model.pol_rad b in
  plain_view eq pol sub_lat kpp c0 -> (mc_lines m < 2 ^ 52)%Z -> (mc_samples m < 2 ^ 52)%Z ->
  nth_error (mc_images m) j = Some f -> if_limits f = ex_empty -> cosine_plane (if_source f) = Some pl ->
  exists phi lam pa k sc lc, sees sub_lat sub_lon position phi lam pa /\
  resolution (B2R eq) (B2R kpp) (mc_samples m) (mc_lines m) k /\ center_at c0 (mc_samples m) (mc_lines m) sc lc /\
  exists params t axes cards d rest,
    populate_map_parameters (map (parameters_of X) (mc_images m)) (mc_params m) = Ok params /\
    type_of_bitpix (p_bitpix params) = Some t /\
    w_file w' = new_file (Hdu t axes cards d :: rest) /\
    forall line i, (0 <= line < mc_lines m)%Z -> (0 <= i < mc_samples m)%Z ->
    let x := km k sc (IZR i + / 2) in let z := km k lc (IZR line + / 2) in
    exists v, d (element m (Z.of_nat j) line i) = Some (existT _ t v) /\
     ((blank_of t (p_blank params) = Some v /\ 1 - 1e-12 <= outline (B2R eq) (B2R pol) pa x z) \/
      exists lat lon, is_seen (B2R eq) (B2R pol) (prograde b) phi lam pa x z lat lon /\
       forall far cosine e, 0 < far -> shows_cosine (spherical far lat lon) 1e-14 (if_source f) cosine e ->
       exists y, stands_for t cards (Z.of_nat (List.length (mc_images m))) (Z.of_nat j + 1) v y /\ Rabs (y - cosine) <= tolerance t pl + e).
Proof.
  intros I CL GL Rt SP Hs R Fs A C E P eq pol V Tall Small J Hl Hpl.
  assert (Cm : exists physical, computes X (if_source f) pl physical).
  { destruct (if_source f); try discriminate Hpl; injection Hpl as <-; eexists; constructor. }
  destruct Cm as [physical Cm].
  destruct (computed_cells X fuel status left_over removable m c w w' r j f pl physical Hs R Fs A C E J Hl Cm)
    as (params & t & axes & cards & d & rest & o & Pp & Pt & Pf & Pc & Cell).
  destruct (command_size m j f Fs J) as [Sz _].
  assert (S0 : (0 < mc_samples m < 2 ^ 52)%Z /\ (0 < mc_lines m < 2 ^ 52)%Z) by (destruct Fs as (S1 & S2 & _); lia).
  rewrite P in Pc. cbn [calls_of] in Pc. destruct (ortho_of X b sub_lat sub_lon position kpp c0) as [q| |] eqn:Q; try discriminate.
  destruct (cell_near X b sub_lat sub_lon position kpp c0 q _ _ I CL Rt V (proj1 S0) (proj2 S0) Q Sz) as (phi & lam & pa & k & sc & lc & Se & Re & Ce & Cn).
  exists phi, lam, pa, k, sc, lc. split; [exact Se|]. split; [exact Re|]. split; [exact Ce|].
  exists params, t, axes, cards, d, rest. do 3 (split; [assumption|]). intros line i Hk Hi. specialize (Cn _ _ Pc line i Hk Hi). cbv zeta in Cn |- *.
  destruct (Cell line i Hk Hi) as (v & Ev & St & Bk). exists v. split; [exact Ev|].
  destruct Cn as [[Out No]|(la & lo & Pl & Fla & Flo & Bla & Blo & lat & lon & Nla & Nlo & Seen)]; [left; split; [exact (Bk No)|exact Out]|right].
  exists lat, lon. split; [exact Seen|]. intros far cosine e Hfar Sh.
  destruct (plotted_computed X fuel status left_over removable m c w w' r j f pl physical Hs R Fs A C E J Hl Cm line i _ Hk Hi Pl) as [ph Ph].
  assert (U : upon 1e-14 la lat). { split; [split; assumption|]. split; [apply Seen|lra]. }
  assert (T : toward 1e-14 lo lon). { split; [assumption|]. split; lra. }
  destruct (cosine_at X arctan (if_source f) pl physical (la, lo) ph 1e-14 lat lon far cosine e I GL SP Hpl Cm Ph ltac:(lra) U T Hfar Sh) as (data & -> & Fd & Bd & Ed).
  destruct (St _ Pl) as [St' _]. destruct (St' data Ph Fd Bd) as (y & Sy & Ny). exists y. split; [exact Sy|].
  replace (y - cosine) with (y - B2R data + (B2R data - cosine)) by ring. eapply Rle_trans; [apply Rabs_triang|]. lra.
Qed.
