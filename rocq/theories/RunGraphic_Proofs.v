(** Proofs for C123: maps of planetographic latitudes. *)
From Coq Require Import List ZArith Reals Bool String Lra Lia Psatz.
From Flocq Require Import Core BinarySingleNaN.
From Verif Require Import Base BaseFacts Flt FltFacts Num LinAlg_Model Maths_Model Spheroid_Model Spheroid_Spec Spheroid_Proofs Extrema_Model Extrema_Spec MakeMap_Model MakeMap_Spec MakeMap_Proofs
  Proj_Model Proj_Spec Proj_Proofs Virtual_Model Virtual_Spec Virtual_Proofs VirtualPlane_Proofs Params_Model
  Fits_Model Fits_Spec Command_Model Command_Spec Command_Proofs Input_Model Entry_Model Entry_Proofs Parse_Model Parse_Spec Parse_Proofs
  Run_Model Run_Spec RunAngle_Proofs RunScale_Proofs Run_Proofs RunPlane_Proofs PiBound_Proofs Roots_Model Ortho_Spec RunOrtho_Spec RunOrtho_Proofs Body_Model Body_Spec BodyDouble_Proofs RunBody_Proofs
  RunGraphic_Spec.
Import ListNotations.
Open Scope R_scope.

#[local] Existing Instance prec53.
#[local] Existing Instance emax53.
#[local] Instance valid53_graphic : Valid_exp (SpecFloat.fexp 53 1024) := fexp_correct 53 1024 eq_refl.
Local Notation fexp := (SpecFloat.fexp 53 1024).
Local Notation rnd := (round radix2 fexp ZnearestE).
Local Ltac abs H := apply Rabs_le_inv in H.

(** ** Latitudes of normals *)
Lemma size_real b : size_of b -> 0 < real_pol b /\ real_pol b <= real_eq b.
Proof. intros H. destruct H as (_ & _ & H1 & H2 & _). unfold real_pol, real_eq. lra. Qed.

Lemma normal_exists b lat : size_of b -> - (PI / 2) <= lat <= PI / 2 -> normal_latitude b lat (graphic_latitude (real_eq b) (real_pol b) lat).
Proof.
  intros S H. destruct (size_real b S) as [P0 Hle]. split; [exact H|]. split; [apply ktan_bound; exact H|].
  intros far lon Hf _. destruct (gradient_normal _ _ P0 Hle far lat lon H) as (t & Ht & E). exists (far * t). split; [apply Rmult_lt_0_compat; assumption|exact E].
Qed.
Lemma normal_unique b lat g : size_of b -> normal_latitude b lat g -> g = graphic_latitude (real_eq b) (real_pol b) lat.
Proof.
  intros S (Hl & Hg & N). destruct (size_real b S) as [P0 Hle]. set (G := graphic_latitude (real_eq b) (real_pol b) lat).
  assert (HG : - (PI / 2) <= G <= PI / 2) by (apply ktan_bound; exact Hl).
  pose proof (radius_pos _ _ P0 Hle lat) as R0. set (far := centric_radius (real_eq b) (real_pol b) lat) in *.
  destruct (N far 0 R0 (radius_on _ _ P0 Hle lat 0)) as (n & Hn & En).
  destruct (gradient_normal _ _ P0 Hle far lat 0 Hl) as (t & Ht & Et). fold G in Et. rewrite Et in En.
  assert (M0 : 0 < far * t) by (apply Rmult_lt_0_compat; assumption). set (n' := far * t) in *.
  unfold spherical, vscale in En. cbn [map] in En. injection En as E1 _ E3. rewrite cos_0, !Rmult_1_r in E1. rewrite !Rmult_1_l in E1, E3.
  assert (n' = n) as Q.
  { apply Rsqr_inj; try lra. unfold Rsqr. pose proof (sin2_cos2 G) as TG. pose proof (sin2_cos2 g) as Tg. unfold Rsqr in *.
    replace (n' * n') with ((sin G * n') * (sin G * n') + (cos G * n') * (cos G * n')) by (transitivity (n' * n' * (sin G * sin G + cos G * cos G)); [ring|rewrite TG; ring]).
    rewrite E1, E3. transitivity (n * n * (sin g * sin g + cos g * cos g)); [ring|rewrite Tg; ring]. }
  apply sin_inj; [exact Hg|exact HG|]. rewrite Q in E3. apply Rmult_eq_reg_r with n; lra.
Qed.

(** ** Latitudes do not come closer than to a quarter *)
Lemma ktan_step_closed k x y : / 4 <= k <= 4 -> - (PI / 2) <= x <= PI / 2 -> - (PI / 2) <= y <= PI / 2 ->
  Rabs (atan_ktan k x - atan_ktan k y) <= 4 * Rabs (x - y).
Proof.
  intros Hk Hx Hy. pose proof PI_RGT_0 as P0.
  assert (D : (- (PI / 2) < x < PI / 2) \/ x = PI / 2 \/ x = - (PI / 2)) by lra.
  assert (D' : (- (PI / 2) < y < PI / 2) \/ y = PI / 2 \/ y = - (PI / 2)) by lra.
  destruct D as [D|D]; [apply ktan_step_to; assumption|].
  destruct D' as [D'|D']; [rewrite Rabs_minus_sym, (Rabs_minus_sym x); apply ktan_step_to; assumption|].
  assert (Ko : atan_ktan k (- (PI / 2)) = - (PI / 2)) by (rewrite ktan_opp, ktan_pole by lra; reflexivity).
  destruct D as [-> | ->], D' as [-> | ->]; rewrite ?Ko, ?ktan_pole; match goal with |- Rabs ?a <= 4 * Rabs ?b => pose proof (Rabs_pos b); change b with a in *; lra end.
Qed.
Lemma graphic_apart Re Rp x y : 0 < Rp -> Rp <= Re -> / 4 <= (Rp / Re) ^ 2 <= 4 -> - (PI / 2) <= x <= PI / 2 -> - (PI / 2) <= y <= PI / 2 ->
  Rabs (x - y) <= 4 * Rabs (graphic_latitude Re Rp x - graphic_latitude Re Rp y).
Proof.
  intros P0 Hle K Hx Hy. destruct (Spheroid_Proofs.latitudes Re Rp P0 Hle x Hx) as (Ex & _). destruct (Spheroid_Proofs.latitudes Re Rp P0 Hle y Hy) as (Ey & _).
  rewrite <- Ex at 1. rewrite <- Ey at 1. apply ktan_step_closed; [exact K| |]; apply ktan_bound; assumption.
Qed.

(** A line keeps half its width from the poles. *)
Lemma middle_margin A B w k n : - (PI / 2) <= A <= PI / 2 -> - (PI / 2) <= B <= PI / 2 -> (0 <= k < n)%Z -> 0 <= w -> IZR n * w <= Rabs (B - A) ->
  Rabs (middle_latitude A B k n) <= PI / 2 - w / 2.
Proof.
  intros HA HB K W Tall. assert (N0 : 0 < IZR n) by (apply IZR_lt; lia).
  pose proof (fraction_bounds k n K) as F. unfold middle_latitude. set (f := fraction k n) in *. set (h := / (2 * IZR n)) in *.
  assert (H : w / 2 <= h * Rabs (B - A)).
  { apply Rle_trans with (h * (IZR n * w)); [unfold h; right; field; lra|]. apply Rmult_le_compat_l; [|exact Tall]. left. apply Rinv_0_lt_compat. lra. }
  apply Rabs_le. destruct (Rle_lt_dec 0 (B - A)) as [P|P].
  - rewrite Rabs_pos_eq in H by exact P. set (d := B - A) in *.
    assert (h * d <= f * d <= (1 - h) * d) by (split; apply Rmult_le_compat_r; lra). assert (B = A + d) by (unfold d; ring). lra.
  - rewrite Rabs_left in H by exact P. set (d := B - A) in *.
    assert (h * - d <= f * - d <= (1 - h) * - d) by (split; apply Rmult_le_compat_r; lra). assert (B = A + d) by (unfold d; ring). lra.
Qed.

(** ** Boundaries *)
Lemma degree_pi2 : Bmult mode_NE (double_of_Z 90) d_degree = d_pi2.
Proof. apply B2SF_inj. vm_compute. reflexivity. Qed.
Lemma boundary_upon (x : double) : is_finite x = true -> Rabs (B2R x) <= 90 -> upon 1.2e-15 (Bmult mode_NE x d_degree) (radians (B2R x)).
Proof.
  intros F B. destruct (radians_near x 90 F B ltac:(lia)) as (Fr & Er & _). cbv zeta in *. pose proof degree_pi as DP. pose proof pi_between as PB.
  pose proof u_value as UV. pose proof eta_u as T. rewrite UV in Er, T.
  split; [split; [exact Fr|]|].
  - assert (M : forall y : double, is_finite y = true -> Rabs (B2R y) <= 90 -> B2R (Bmult mode_NE y d_degree) = rnd (B2R y * B2R d_degree)).
    { intros y Fy By. pose proof (Bmult_correct 53 1024 prec53 emax53 mode_NE y d_degree) as C. destruct degree_val as [FD [D0 D1]].
      rewrite Rlt_bool_true in C; [apply C|].
      assert (Q : Rabs (B2R y * B2R d_degree) <= 2). { rewrite Rabs_mult, (Rabs_pos_eq (B2R d_degree)) by lra. apply Rle_trans with (90 * B2R d_degree); [apply Rmult_le_compat_r; lra|lra]. }
      assert (G2 : generic_format radix2 fexp 2) by (change 2 with (bpow radix2 1); apply generic_format_bpow; cbn; lia).
      apply Rle_lt_trans with 2; [apply abs_round_le_generic; auto with typeclass_instances|change 2 with (bpow radix2 1); apply bpow_lt; lia]. }
    destruct (double_of_Z_exact 90 ltac:(lia)) as [F9 E9].
    assert (P : B2R d_pi2 = rnd (90 * B2R d_degree)). { rewrite <- degree_pi2, M, E9; [reflexivity|exact F9|rewrite E9, Rabs_pos_eq; lra]. }
    destruct degree_val as [_ [D0 D1]]. abs B. rewrite M, P by (try assumption; apply Rabs_le; lra). apply Rabs_le. rewrite <- round_NE_opp.
    split; apply round_le; auto with typeclass_instances; [replace (- (90 * B2R d_degree)) with (-90 * B2R d_degree) by ring|]; apply Rmult_le_compat_r; lra.
  - split.
    + abs B. unfold radians. assert (0 < PI) by lra. split; apply Rmult_le_reg_r with 180; try lra.
      * replace (B2R x * (PI / 180) * 180) with (B2R x * PI) by field. replace (- (PI / 2) * 180) with (-90 * PI) by field. apply Rmult_le_compat_r; lra.
      * replace (B2R x * (PI / 180) * 180) with (B2R x * PI) by field. replace (PI / 2 * 180) with (90 * PI) by field. apply Rmult_le_compat_r; lra.
    + assert (R1 : Rabs (B2R x * (B2R d_degree - PI / 180)) <= 90 * 1e-17) by (rewrite Rabs_mult; apply Rmult_le_compat; try apply Rabs_pos; assumption).
      abs R1. abs Er. unfold radians. apply Rabs_le. lra.
Qed.

(** ** Cells *)
Lemma graphic_ends (L : libm ar_double) g (lo hi lo' hi' : double) q : simple_cyl_new (A := ar_double) L g lo hi lo' hi' true = Ok q ->
  exists q', simple_cyl_new (A := ar_double) L g lo hi lo' hi' false = Ok q' /\ sc_lo_lon q = sc_lo_lon q' /\ sc_hi_lon q = sc_hi_lon q' /\
  sc_graphic q = true /\ sc_lo_lat q = g (sc_lo_lat q') /\ sc_hi_lat q = g (sc_hi_lat q').
Proof.
  unfold simple_cyl_new, boundary_latitude, validate_latitude, validate_longitude. intros Q.
  repeat (destruct (_ || _) in Q |- *; [discriminate|]; cbn [bind] in Q |- *).
  repeat match type of Q with context [if ?b then _ else _] => destruct b end; try discriminate; cbn [bind] in Q |- *; apply Ok_inj in Q; subst q; eexists;
    repeat (split; [reflexivity|]); reflexivity.
Qed.

Lemma graphic_cells X arctan m o calls b (lo hi lo' hi' : double) : ieee X -> good_library (x_libm X) arctan -> spheroids X arctan -> size_of b ->
  map_size (mc_samples m) (mc_lines m) -> (mc_samples m < 2 ^ 52)%Z ->
  mc_projection m = SimpleCylindrical b lo hi lo' hi' true -> IZR (mc_lines m) * 1e-9 <= Rabs (B2R hi - B2R lo) ->
  (B2R lo' = B2R hi' \/ 1e-9 <= Rabs (B2R hi' - B2R lo')) ->
  calls_of X (mc_projection m) (mc_samples m) (mc_lines m) = (calls, Ok o) ->
  forall k i, (0 <= k < mc_lines m)%Z -> (0 <= i < mc_samples m)%Z ->
  forall g1 g2 rla, normal_latitude b (radians (B2R lo)) g1 -> normal_latitude b (radians (B2R hi)) g2 ->
  normal_latitude b rla (middle_latitude g1 g2 k (mc_lines m)) -> exists q, plotted (mc_samples m) calls k i q /\
  upon 1.5e-13 (fst q) rla /\ toward 1e-13 (snd q) (radians (middle_longitude (prograde b) (B2R lo') (B2R hi') i (mc_samples m))).
Proof.
  intros I GL SP BS Sz Small P Tall Apart Pc k i Hk Hi g1 g2 rla N1 N2 N3. rewrite P in Pc. cbn [calls_of] in Pc.
  destruct (simple_cyl_new _ _ _ _ _ _ _) as [q| |] eqn:Q; try discriminate.
  pose proof (sc_point ar_double _ _ _ _ _ _ _ Sz Pc k i Hk Hi) as Pl. cbv zeta in Pl.
  destruct (graphic_ends _ _ _ _ _ _ _ Q) as (q' & Q' & W1 & W2 & G & V1 & V2).
  destruct (simple_cyl_validated _ _ _ _ _ _ _ Q') as ((F1 & B1) & (F2 & B2) & (F1' & B1') & (F2' & B2')).
  destruct (ends_computed lo' hi' F1' F2' B1' B2' Apart (x_libm X) _ _ _ _ (i_degree X I) (i_2pi X I) (i_eps X I) (i_tiny X I) Q') as (En & _ & V3 & V4).
  rewrite <- W1, <- W2 in En. rewrite V3 in V1. rewrite V4 in V2. rewrite G, V1, V2 in Pl.
  destruct (cell_longitude (prograde b) lo' hi' q i (mc_samples m) B1' B2' En Hi Small) as (Fl & Nl & _). cbv zeta in Fl, Nl.
  pose proof (middle_turn _ _ (prograde b) i (mc_samples m) B1' B2' Hi) as Mb.
  eexists. split; [exact Pl|]. cbn [fst snd]. clear Pl Pc Q Q' En V1 V2 V3 V4 W1 W2.
  pose proof degree_pi as DP. pose proof u_value as UV. pose proof pi_between as PB.
  split.
  - destruct (SP b) as (Eg & Ec & _). cbv zeta in Eg, Ec. rewrite Eg, Ec.
    pose proof (boundary_upon lo F1 B1) as U1. pose proof (boundary_upon hi F2 B2) as U2.
    rewrite (normal_unique b _ _ BS N1) in N3. rewrite (normal_unique b _ _ BS N2) in N3.
    pose proof N1 as (R1 & _). pose proof N2 as (R2 & _). clear N1 N2 g1 g2.
    destruct (size_real b BS) as [P0 Hle]. set (Re := real_eq b) in *. set (Rp := real_pol b) in *.
    pose proof (normal_unique b _ _ BS N3) as E3. fold Re Rp in E3. pose proof N3 as (R3 & R4 & _). clear N3.
    assert (Hc : rla = centric_latitude Re Rp (middle_latitude (graphic_latitude Re Rp (radians (B2R lo))) (graphic_latitude Re Rp (radians (B2R hi))) k (mc_lines m))).
    { rewrite E3. symmetry. apply (Spheroid_Proofs.latitudes Re Rp P0 Hle rla R3). }
    unfold size_of in BS. set (eq := Spheroid_Model.eq_rad b : double) in *. set (pol := Spheroid_Model.pol_rad b : double) in *.
    destruct (graphic_near (x_libm X) arctan GL 1.2e-15 eq pol BS _ _ U1) as [[FG1 EG1] BG1].
    destruct (graphic_near (x_libm X) arctan GL 1.2e-15 eq pol BS _ _ U2) as [[FG2 EG2] BG2].
    change (B2R eq) with Re in *. change (B2R pol) with Rp in *.
    destruct (ratio_bounds eq pol BS) as (K1 & K2 & _). change (B2R eq) with Re in *. change (B2R pol) with Rp in *.
    set (A := graphic_latitude Re Rp (radians (B2R lo))) in *. set (B := graphic_latitude Re Rp (radians (B2R hi))) in *.
    set (a := double_graphic _ _ _ _ _) in FG1, EG1, BG1. set (b' := double_graphic _ _ _ _ _) in FG2, EG2, BG2.
    assert (HA : - (PI / 2) <= A <= PI / 2) by (apply ktan_bound; exact R1). assert (HB : - (PI / 2) <= B <= PI / 2) by (apply ktan_bound; exact R2).
    pose proof pi2_below as PL.
    destruct (line_near a b' A B 7.8e-15 4 k (mc_lines m)) as [[F E] _]; try assumption; try lra.
    { abs BG1. abs BG2. apply Rabs_le. lra. } { apply (lines_small lo hi) with (1 := B1) (2 := B2); assumption. }
    fold (middle_latitude A B k (mc_lines m)) in E. set (M := middle_latitude A B k (mc_lines m)) in *.
    assert (Ap : IZR (mc_lines m) * 4e-12 <= Rabs (B - A)).
    { pose proof (graphic_apart Re Rp _ _ P0 Hle (square_bounds _ K2) R2 R1) as Ga. fold A B in Ga.
      assert (Rd : Rabs (radians (B2R hi) - radians (B2R lo)) = Rabs (B2R hi - B2R lo) * (PI / 180)).
      { unfold radians. rewrite <- Rmult_minus_distr_r, Rabs_mult, (Rabs_pos_eq (PI / 180)) by lra. reflexivity. }
      rewrite Rd in Ga. assert (0 <= IZR (mc_lines m)) by (apply IZR_le; lia).
      assert (IZR (mc_lines m) * 1e-9 * (PI / 180) <= Rabs (B2R hi - B2R lo) * (PI / 180)) by (apply Rmult_le_compat_r; lra).
      assert (IZR (mc_lines m) * 1e-9 * 0.0174 <= IZR (mc_lines m) * 1e-9 * (PI / 180)) by (apply Rmult_le_compat_l; lra). lra. }
    pose proof (middle_margin A B 4e-12 k (mc_lines m) HA HB Hk ltac:(lra) Ap) as Mg. fold M in Mg.
    assert (U : upon 3.1e-14 (Bplus mode_NE (Bmult mode_NE (Bplus mode_NE (double_of_Z k) (half (A := ar_double))) (Bdiv mode_NE (Bminus mode_NE b' a) (double_of_Z (mc_lines m)))) a) M).
    { rewrite UV in E. abs Mg. abs E. split; [split; [exact F|apply Rabs_le; lra]|]. split; [lra|]. apply Rabs_le. lra. }
    destruct (centric_near (x_libm X) arctan GL 3.1e-14 eq pol BS _ _ U) as [[FC EC] BC].
    change (B2R eq) with Re in *. change (B2R pol) with Rp in *. rewrite <- Hc in EC.
    split; [split; [exact FC|exact BC]|]. split; [exact R3|]. eapply Rle_trans; [exact EC|lra].
  - set (rm := middle_longitude _ _ _ _ _) in *.
    assert (Rr : forall x D, Rabs x <= D -> Rabs (x * B2R d_degree - radians x) <= D * 1e-17).
    { intros x D Hx. unfold radians. replace (x * B2R d_degree - x * (PI / 180)) with (x * (B2R d_degree - PI / 180)) by field. rewrite Rabs_mult.
      apply Rmult_le_compat; try apply Rabs_pos; assumption. }
    split; [exact Fl|]. pose proof (Rr rm 720 Mb) as R1. abs R1. abs Nl. rewrite UV in Nl.
    assert (R2 : Rabs (radians rm) <= 12.6).
    { unfold radians. rewrite Rabs_mult, (Rabs_pos_eq (PI / 180)) by lra.
      apply Rle_trans with (720 * (PI / 180)); [apply Rmult_le_compat_r; lra|]. lra. }
    abs R2. cbn [a_div a_sub a_of_Z ar_double] in *. split; apply Rabs_le; lra.
Qed.

Theorem graphic_cosines X arctan fuel status left_over removable m c w w' r j f pl b lo hi lo' hi' :
  ieee X -> good_library (x_libm X) arctan -> spheroids X arctan ->
  (forall n, status n = 0%Z) -> ready_command m -> fits_size m -> accurate (x_scale X) ->
  command_of X fuel m = Some c -> execute status left_over removable c w = (w', Ok r) ->
  mc_projection m = SimpleCylindrical b lo hi lo' hi' true -> size_of b -> IZR (mc_lines m) * 1e-9 <= Rabs (B2R hi - B2R lo) ->
  (B2R lo' = B2R hi' \/ 1e-9 <= Rabs (B2R hi' - B2R lo')) -> (mc_samples m < 2 ^ 52)%Z ->
  nth_error (mc_images m) j = Some f -> if_limits f = ex_empty -> cosine_plane (if_source f) = Some pl ->
  exists params t axes cards d rest,
    populate_map_parameters (map (parameters_of X) (mc_images m)) (mc_params m) = Ok params /\
    type_of_bitpix (p_bitpix params) = Some t /\
    w_file w' = new_file (Hdu t axes cards d :: rest) /\
    forall k i, (0 <= k < mc_lines m)%Z -> (0 <= i < mc_samples m)%Z ->
    forall g1 g2 lat, normal_latitude b (radians (B2R lo)) g1 -> normal_latitude b (radians (B2R hi)) g2 ->
    normal_latitude b lat (middle_latitude g1 g2 k (mc_lines m)) ->
    forall far cosine e, 0 < far ->
    shows_cosine (spherical far lat (radians (middle_longitude (prograde b) (B2R lo') (B2R hi') i (mc_samples m)))) 1.5e-13 (if_source f) cosine e ->
    exists v y, d (element m (Z.of_nat j) k i) = Some (existT _ t v) /\
      stands_for t cards (Z.of_nat (List.length (mc_images m))) (Z.of_nat j + 1) v y /\ Rabs (y - cosine) <= tolerance t pl + e.
Proof.
  intros I GL SP Hs R Fs A C E P BS Tall Apart Small J Hl Hpl.
  destruct (cosines X arctan fuel status left_over removable m c w w' r j f pl I GL SP Hs R Fs A C E J Hl Hpl)
    as (params & t & axes & cards & d & rest & o & Pp & Pt & Pf & Pc & Cell).
  exists params, t, axes, cards, d, rest. repeat (split; [assumption|]). intros k i Hk Hi g1 g2 lat N1 N2 N3 far cosine e Hfar Sh.
  destruct (command_size m j f Fs J) as [Sz _].
  destruct (graphic_cells X arctan m o (c_calls c) b lo hi lo' hi' I GL SP BS Sz Small P Tall Apart Pc k i Hk Hi g1 g2 lat N1 N2 N3) as (q & Q & U & T).
  assert (T' : toward 1.5e-13 (snd q) (radians (middle_longitude (prograde b) (B2R lo') (B2R hi') i (mc_samples m)))).
  { destruct T as (T1 & T2 & T3). split; [exact T1|]. split; [exact T2|]. lra. }
  apply (Cell k i q Hk Hi Q 1.5e-13 _ _ far cosine e ltac:(lra) U T' Hfar Sh).
Qed.

Theorem graphic_latitudes X arctan fuel status left_over removable m c w w' r j f b lo hi lo' hi' b' kind :
  ieee X -> good_library (x_libm X) arctan -> spheroids X arctan ->
  (forall n, status n = 0%Z) -> ready_command m -> fits_size m -> accurate (x_scale X) ->
  command_of X fuel m = Some c -> execute status left_over removable c w = (w', Ok r) ->
  mc_projection m = SimpleCylindrical b lo hi lo' hi' true -> size_of b -> IZR (mc_lines m) * 1e-9 <= Rabs (B2R hi - B2R lo) ->
  (B2R lo' = B2R hi' \/ 1e-9 <= Rabs (B2R hi' - B2R lo')) -> (mc_samples m < 2 ^ 52)%Z ->
  nth_error (mc_images m) j = Some f -> if_limits f = ex_empty -> if_source f = F_latitude b' kind -> size_of b' ->
  exists params t axes cards d rest,
    populate_map_parameters (map (parameters_of X) (mc_images m)) (mc_params m) = Ok params /\
    type_of_bitpix (p_bitpix params) = Some t /\
    w_file w' = new_file (Hdu t axes cards d :: rest) /\
    forall k i, (0 <= k < mc_lines m)%Z -> (0 <= i < mc_samples m)%Z ->
    forall g1 g2 lat, normal_latitude b (radians (B2R lo)) g1 -> normal_latitude b (radians (B2R hi)) g2 ->
    normal_latitude b lat (middle_latitude g1 g2 k (mc_lines m)) ->
    forall g, (if kind then normal_latitude b' lat (radians g) else lat = radians g) ->
    exists v y, d (element m (Z.of_nat j) k i) = Some (existT _ t v) /\
      stands_for t cards (Z.of_nat (List.length (mc_images m))) (Z.of_nat j + 1) v y /\ Rabs (y - g) <= tolerance t latitude_plane + 4e-11.
Proof.
  intros I GL SP Hs R Fs A C E P BS Tall Apart Small J Hl Hf Hb.
  assert (Cm : computes X (if_source f) latitude_plane (latitude_data (A := ar_double) (x_libm X) (x_graphic X b') kind)).
  { rewrite Hf. constructor. }
  destruct (computed_plane X fuel status left_over removable m c w w' r j f _ _ Hs R Fs A C E J Hl Cm)
    as (params & t & axes & cards & d & rest & o & Pp & Pt & Pf & Pc & Cell).
  exists params, t, axes, cards, d, rest. repeat (split; [assumption|]). intros k i Hk Hi g1 g2 lat N1 N2 N3 g Hg.
  destruct (command_size m j f Fs J) as [Sz _].
  destruct (graphic_cells X arctan m o (c_calls c) b lo hi lo' hi' I GL SP BS Sz Small P Tall Apart Pc k i Hk Hi g1 g2 lat N1 N2 N3) as (q & Q & U & T).
  destruct (Cell k i q Hk Hi Q) as (v & Ev & V & _).
  pose proof (normal_unique b' lat (radians g) Hb) as Un. unfold size_of in Hb.
  unfold real_eq, real_pol in Un. set (eq := Spheroid_Model.eq_rad b' : double) in *. set (pol := Spheroid_Model.pol_rad b' : double) in *.
  destruct (graphic_near (x_libm X) arctan GL 1.5e-13 eq pol Hb (fst q) lat U) as ([Fg Eg] & Bg).
  pose proof U as ([Fl Bl] & Hla & El).
  destruct (SP b') as (Eq & _). cbv zeta in Eq. fold eq pol in Eq.
  destruct (latitude_double_range (x_libm X) (x_graphic X b') kind (fst q) (snd q) (i_pi2 X I) (i_degree X I) (finite_not_nan _ Fl)) as [Rg _].
  { intros _ _. rewrite Eq. split; [exact Fg|exact Bg]. }
  destruct (Rg (conj Fl Bl)) as (x & Ex & Fx & Bx).
  destruct (V x Ex Fx Bx) as (y & Sy & Ny).
  set (s := if kind then double_graphic (x_libm X) arctan eq pol (fst q) else fst q).
  assert (Ed : x = Bdiv mode_NE s d_degree).
  { unfold latitude_data in Ex. rewrite (i_degree X I) in Ex. destruct (_ || _) in Ex; [discriminate|]. cbv zeta iota in Ex. rewrite Eq in Ex. symmetry. unfold s.
    destruct kind; now injection Ex. }
  exists v, y. split; [exact Ev|]. split; [exact Sy|]. pose proof pi_between as PB.
  assert (S : is_finite s = true /\ Rabs (B2R s - radians g) <= 6.04e-13 /\ - (PI / 2) <= radians g <= PI / 2).
  { unfold s. destruct kind.
    - split; [exact Fg|]. rewrite (Un Hg). split; [lra|]. apply ktan_bound. exact Hla.
    - split; [exact Fl|]. rewrite <- Hg. split; [lra|exact Hla]. }
  destruct S as (Fs' & Es & Bs).
  assert (Bgg : Rabs g <= 90).
  { unfold radians in Bs. apply Rabs_le. split; apply Rmult_le_reg_r with (PI / 180); lra. }
  assert (Nd : Rabs (B2R s - g * B2R d_degree) <= 6.1e-13).
  { pose proof degree_pi as DP. assert (R1 : Rabs (g * (B2R d_degree - PI / 180)) <= 90 * 1e-17) by (rewrite Rabs_mult; apply Rmult_le_compat; try apply Rabs_pos; assumption).
    abs R1. abs Es. unfold radians in Es. apply Rabs_le. lra. }
  destruct (degrees_near s g _ 90 Fs' Nd ltac:(lia) Bgg ltac:(lra)) as [_ N]. rewrite <- Ed in N. rewrite u_value in N. abs N. abs Ny. apply Rabs_le. lra.
Qed.

Theorem normal_one b lat : size_of b -> - (PI / 2) <= lat <= PI / 2 -> exists g, normal_latitude b lat g /\ forall g', normal_latitude b lat g' -> g' = g.
Proof. intros S H. exists (graphic_latitude (real_eq b) (real_pol b) lat). split; [apply normal_exists; assumption|]. intros g' N. apply normal_unique; assumption. Qed.
(** And every latitude is that of some normal. *)
Theorem normal_onto b g : size_of b -> - (PI / 2) <= g <= PI / 2 -> exists lat, normal_latitude b lat g.
Proof.
  intros S H. destruct (size_real b S) as [P0 Hle]. exists (centric_latitude (real_eq b) (real_pol b) g).
  pose proof (normal_exists b (centric_latitude (real_eq b) (real_pol b) g) S (ktan_bound _ _ H)) as N.
  destruct (Spheroid_Proofs.latitudes _ _ P0 Hle g H) as (_ & E & _). rewrite E in N. exact N.
Qed.


(** ** Longitudes *)
Theorem graphic_longitudes X fuel status left_over removable m c w w' r j f b lo hi lo' hi' :
  ieee X -> (forall n, status n = 0%Z) -> ready_command m -> fits_size m -> accurate (x_scale X) ->
  command_of X fuel m = Some c -> execute status left_over removable c w = (w', Ok r) ->
  mc_projection m = SimpleCylindrical b lo hi lo' hi' true ->
  (B2R lo' = B2R hi' \/ 1e-9 <= Rabs (B2R hi' - B2R lo')) -> (mc_samples m < 2 ^ 52)%Z ->
  nth_error (mc_images m) j = Some f -> if_limits f = ex_empty -> if_source f = F_longitude ->
  exists params t axes cards d rest,
    populate_map_parameters (map (parameters_of X) (mc_images m)) (mc_params m) = Ok params /\
    type_of_bitpix (p_bitpix params) = Some t /\
    w_file w' = new_file (Hdu t axes cards d :: rest) /\
    forall k i, (0 <= k < mc_lines m)%Z -> (0 <= i < mc_samples m)%Z ->
    exists v y z, d (element m (Z.of_nat j) k i) = Some (existT _ t v) /\
      stands_for t cards (Z.of_nat (List.length (mc_images m))) (Z.of_nat j + 1) v y /\
      - tolerance t longitude_plane <= y <= 360 + tolerance t longitude_plane /\
      Rabs (y - (middle_longitude (prograde b) (B2R lo') (B2R hi') i (mc_samples m) + 360 * IZR z)) <= tolerance t longitude_plane + 1e-11.
Proof.
  intros I Hs R Fs A C E P Apart Small J Hl Hf.
  assert (Cm : computes X (if_source f) longitude_plane (longitude_data (A := ar_double) (x_circle X) (l_degree (x_libm X)) (x_fmod X))).
  { rewrite Hf. constructor. }
  destruct (computed_plane X fuel status left_over removable m c w w' r j f _ _ Hs R Fs A C E J Hl Cm)
    as (params & t & axes & cards & d & rest & o & Pp & Pt & Pf & Pc & Cell).
  exists params, t, axes, cards, d, rest. repeat (split; [assumption|]). intros k i Hk Hi.
  rewrite P in Pc. cbn [calls_of] in Pc.
  destruct (simple_cyl_new _ _ _ _ _ _ _) as [q| |] eqn:Q; try discriminate.
  destruct (graphic_ends _ _ _ _ _ _ _ Q) as (q' & Q' & W1 & W2 & _).
  destruct (simple_cyl_validated _ _ _ _ _ _ _ Q') as (_ & _ & (F1 & B1) & (F2 & B2)).
  destruct (command_size m j f Fs J) as [Sz _].
  pose proof (sc_point ar_double _ _ _ _ _ _ _ Sz Pc k i Hk Hi) as Pl. cbv zeta in Pl.
  destruct (ends_computed lo' hi' F1 F2 B1 B2 Apart (x_libm X) _ _ _ _ (i_degree X I) (i_2pi X I) (i_eps X I) (i_tiny X I) Q') as (En & _).
  rewrite <- W1, <- W2 in En.
  destruct (cell_longitude (prograde b) lo' hi' q i (mc_samples m) B1 B2 En Hi Small) as (Fl & Nl & Bl). cbv zeta in Fl, Nl.
  set (lon := sc_longitude _ _ _ _) in *. destruct (Cell k i _ Hk Hi Pl) as (v & Ev & St & _). cbn [fst snd] in St.
  destruct (RunAngle_Proofs.longitude_value (x_fmod X) lon _ (i_fmod X I) Fl Nl Bl) as (x & Ex & Fx & Bx & z & Nx).
  rewrite (i_degree X I), (i_circle X I) in St.
  destruct (St x Ex Fx Bx) as (y & Sy & Ny). exists v, y, z. split; [exact Ev|]. split; [exact Sy|].
  apply Rabs_le_inv in Ny. apply Rabs_le_inv in Nx. split; [lra|]. apply Rabs_le. lra.
Qed.


(** ** Elements of planes of latitudes *)
Lemma latitude_element X arctan b' (kind : bool) (q : double * double) w lat g : ieee X -> good_library (x_libm X) arctan -> spheroids X arctan -> size_of b' ->
  upon w (fst q) lat -> 0 <= w <= 1e-8 -> (if kind then normal_latitude b' lat (radians g) else lat = radians g) ->
  exists x, latitude_data (A := ar_double) (x_libm X) (x_graphic X b') kind (fst q) (snd q) = Ok (Some x) /\ is_finite x = true /\ plane_range latitude_plane (B2R x) /\
  Rabs (B2R x - g) <= 58 * (4e-15 + 4 * w) + 3e-14.
Proof.
  intros I GL SP Hb U Hw Hg.
  pose proof (normal_unique b' lat (radians g) Hb) as Un. unfold size_of in Hb.
  unfold real_eq, real_pol in Un. set (eq := Spheroid_Model.eq_rad b' : double) in *. set (pol := Spheroid_Model.pol_rad b' : double) in *.
  destruct (graphic_near (x_libm X) arctan GL w eq pol Hb (fst q) lat U) as ([Fg Eg] & Bg).
  pose proof U as ([Fl Bl] & Hla & El).
  destruct (SP b') as (Eq & _). cbv zeta in Eq. fold eq pol in Eq.
  destruct (latitude_double_range (x_libm X) (x_graphic X b') kind (fst q) (snd q) (i_pi2 X I) (i_degree X I) (finite_not_nan _ Fl)) as [Rg _].
  { intros _ _. rewrite Eq. split; [exact Fg|exact Bg]. }
  destruct (Rg (conj Fl Bl)) as (x & Ex & Fx & Bx).
  set (s := if kind then double_graphic (x_libm X) arctan eq pol (fst q) else fst q).
  assert (Ed : x = Bdiv mode_NE s d_degree).
  { unfold latitude_data in Ex. rewrite (i_degree X I) in Ex. destruct (_ || _) in Ex; [discriminate|]. cbv zeta iota in Ex. rewrite Eq in Ex. symmetry. unfold s.
    destruct kind; now injection Ex. }
  exists x. split; [exact Ex|]. split; [exact Fx|]. split; [exact Bx|]. pose proof pi_between as PB.
  assert (S : is_finite s = true /\ Rabs (B2R s - radians g) <= 3e-15 + 4 * w /\ - (PI / 2) <= radians g <= PI / 2).
  { unfold s. destruct kind.
    - split; [exact Fg|]. rewrite (Un Hg). split; [lra|]. apply ktan_bound. exact Hla.
    - split; [exact Fl|]. rewrite <- Hg. split; [lra|exact Hla]. }
  destruct S as (Fs' & Es & Bs).
  assert (Bgg : Rabs g <= 90).
  { unfold radians in Bs. apply Rabs_le. split; apply Rmult_le_reg_r with (PI / 180); lra. }
  assert (Nd : Rabs (B2R s - g * B2R d_degree) <= 4e-15 + 4 * w).
  { pose proof degree_pi as DP. assert (R1 : Rabs (g * (B2R d_degree - PI / 180)) <= 90 * 1e-17) by (rewrite Rabs_mult; apply Rmult_le_compat; try apply Rabs_pos; assumption).
    abs R1. abs Es. unfold radians in Es. apply Rabs_le. lra. }
  destruct (degrees_near s g _ 90 Fs' Nd ltac:(lia) Bgg ltac:(lra)) as [_ N]. rewrite <- Ed in N. rewrite u_value in N. abs N. apply Rabs_le. lra.
Qed.

(** ** Orthographic maps *)
Theorem orthographic_graphic X arctan fuel status left_over removable m c w w' r j f (b : body) sub_lat sub_lon position kpp c0 b' :
  ieee X -> close_library (x_libm X) -> good_library (x_libm X) arctan -> (forall p q r, x_roots X p q r = double_roots p q r) -> spheroids X arctan ->
  (forall n, status n = 0%Z) -> ready_command m -> fits_size m -> accurate (x_scale X) ->
  command_of X fuel m = Some c -> execute status left_over removable c w = (w', Ok r) ->
  mc_projection m = Orthographic b sub_lat sub_lon position kpp c0 ->
  let eq := Spheroid_Model.eq_rad b in let pol := Spheroid_Model.pol_rad b in
  plain_view eq pol sub_lat kpp c0 -> (mc_lines m < 2 ^ 52)%Z -> (mc_samples m < 2 ^ 52)%Z ->
  nth_error (mc_images m) j = Some f -> if_limits f = ex_empty -> if_source f = F_latitude b' true -> size_of b' ->
  exists phi lam pa k sc lc, sees sub_lat sub_lon position phi lam pa /\
  resolution (B2R eq) (B2R kpp) (mc_samples m) (mc_lines m) k /\ center_at c0 (mc_samples m) (mc_lines m) sc lc /\
  exists params t axes cards d rest,
    populate_map_parameters (map (parameters_of X) (mc_images m)) (mc_params m) = Ok params /\
    type_of_bitpix (p_bitpix params) = Some t /\
    w_file w' = new_file (Hdu t axes cards d :: rest) /\
    forall line i, (0 <= line < mc_lines m)%Z -> (0 <= i < mc_samples m)%Z ->
    let x := km k sc (IZR i + / 2) in let z := km k lc (IZR line + / 2) in
    exists v, d (element m (Z.of_nat j) line i) = Some (existT _ t v) /\
     ((blank_of t (p_blank params) = Some v /\ 1 - 1e-12 <= outline (B2R eq) (B2R pol) pa x z) \/
      exists lat lon, is_seen (B2R eq) (B2R pol) (prograde b) phi lam pa x z lat lon /\
       forall g, normal_latitude b' lat (radians g) ->
       exists y, stands_for t cards (Z.of_nat (List.length (mc_images m))) (Z.of_nat j + 1) v y /\ Rabs (y - g) <= tolerance t latitude_plane + 3e-12).
Proof.
  intros I CL GL Rt SP Hs R Fs A C E P eq pol V Tall Small J Hl Hf Hb.
  assert (Cm : computes X (if_source f) latitude_plane (latitude_data (A := ar_double) (x_libm X) (x_graphic X b') true)).
  { rewrite Hf. constructor. }
  destruct (computed_cells X fuel status left_over removable m c w w' r j f _ _ Hs R Fs A C E J Hl Cm)
    as (params & t & axes & cards & d & rest & o & Pp & Pt & Pf & Pc & Cell).
  destruct (command_size m j f Fs J) as [Sz _].
  assert (S0 : (0 < mc_samples m < 2 ^ 52)%Z /\ (0 < mc_lines m < 2 ^ 52)%Z) by (destruct Fs as (S1 & S2 & _); lia).
  rewrite P in Pc. cbn [calls_of] in Pc. destruct (ortho_of X b sub_lat sub_lon position kpp c0) as [q| |] eqn:Q; try discriminate.
  destruct (cell_near X b sub_lat sub_lon position kpp c0 q _ _ I CL Rt V (proj1 S0) (proj2 S0) Q Sz) as (phi & lam & pa & k & sc & lc & Se & Re & Ce & Cn).
  exists phi, lam, pa, k, sc, lc. split; [exact Se|]. split; [exact Re|]. split; [exact Ce|].
  exists params, t, axes, cards, d, rest. do 3 (split; [assumption|]). intros line i Hk Hi. specialize (Cn _ _ Pc line i Hk Hi). cbv zeta in Cn |- *.
  destruct (Cell line i Hk Hi) as (v & Ev & St & Bk). exists v. split; [exact Ev|].
  destruct Cn as [[Out No]|(la & lo & Pl & Fla & Flo & Bla & Blo & lat & lon & Nla & Nlo & Seen)]; [left; split; [exact (Bk No)|exact Out]|right].
  exists lat, lon. split; [exact Seen|]. intros g Hg.
  assert (U : upon 1e-14 la lat). { split; [split; assumption|]. split; [apply Seen|lra]. }
  destruct (latitude_element X arctan b' true (la, lo) 1e-14 lat g I GL SP Hb U ltac:(lra) Hg) as (x & Ex & Fx & Bx & Nx).
  destruct (St _ Pl) as [St' _]. destruct (St' x Ex Fx Bx) as (y & Sy & Ny). exists y. split; [exact Sy|].
  abs Ny. abs Nx. apply Rabs_le. lra.
Qed.
