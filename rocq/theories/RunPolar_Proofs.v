(** Proofs for C114. *)
From Coq Require Import List ZArith Reals Bool String Lra Lia Psatz.
From Flocq Require Import Core BinarySingleNaN.
From Verif Require Import Base BaseFacts Flt FltFacts Num Maths_Model Spheroid_Model Spheroid_Proofs Extrema_Model Extrema_Spec MakeMap_Model MakeMap_Spec MakeMap_Proofs
  Proj_Model Proj_Spec Proj_Proofs ProjGrid_Proofs Virtual_Model Virtual_Spec Virtual_Proofs VirtualPlane_Proofs Params_Model
  Fits_Model Fits_Spec Command_Model Command_Spec Command_Proofs Input_Model Entry_Model Entry_Proofs Parse_Model Parse_Spec Parse_Proofs
  Run_Model Run_Spec RunAngle_Proofs RunScale_Proofs Run_Proofs RunPlane_Proofs RunMercator_Spec RunMercator_Proofs RunGrid_Spec RunGrid_Proofs
  RunPolar_Spec.
Import ListNotations.
Open Scope R_scope.

#[local] Existing Instance prec53.
#[local] Existing Instance emax53.
Local Ltac abs H := apply Rabs_le_inv in H.
Local Notation rnd := (round radix2 (SpecFloat.fexp 53 1024) ZnearestE).
#[local] Instance valid53'' : Valid_exp (SpecFloat.fexp 53 1024) := fexp_correct 53 1024 eq_refl.

(** ** Halves *)
Lemma exact_half z : (Z.abs z < 2 ^ 53)%Z -> rnd (IZR z / 2) = IZR z / 2.
Proof.
  intros Z. apply round_generic; [apply valid_rnd_N|].
  replace (IZR z / 2) with (F2R (Float radix2 z (-1))).
  2: { unfold F2R. cbn [Fnum Fexp]. change (bpow radix2 (-1)) with (/ 2). lra. }
  apply (generic_format_FLT radix2 (3 - 1024 - 53) 53). exists (Float radix2 z (-1)); [reflexivity|exact Z|cbn; lia].
Qed.
Lemma small_half z : (Z.abs z < 2 ^ 53)%Z -> Rabs (IZR z / 2) < bpow radix2 1024.
Proof.
  intros Z. unfold Rdiv. rewrite Rabs_mult, (Rabs_pos_eq (/ 2)) by lra. rewrite <- abs_IZR.
  apply Rlt_trans with (bpow radix2 53); [|apply bpow_lt; lia]. change (bpow radix2 53) with (IZR (2 ^ 53)). apply IZR_lt in Z.
  assert (0 <= IZR (Z.abs z)) by (apply IZR_le; lia). lra.
Qed.
Lemma from_center_exact i n : (0 <= i < n)%Z -> (n < 2 ^ 52)%Z ->
  is_number (a_sub ar_double (a_add ar_double (a_of_Z ar_double i) (half (A := ar_double))) (a_div ar_double (a_of_Z ar_double n) (a_of_Z ar_double 2)))
    (from_center i n).
Proof.
  intros I N. cbn [a_sub a_add a_div a_of_Z ar_double]. destruct (middle_val i ltac:(lia)) as [Fi Ei].
  destruct (double_of_Z_exact n ltac:(lia)) as [Fn En]. destruct (double_of_Z_exact 2 ltac:(lia)) as [F2 E2].
  set (x := Bplus mode_NE (double_of_Z i) (half (A := ar_double))) in *.
  assert (D : is_number (Bdiv mode_NE (double_of_Z n) (double_of_Z 2)) (IZR n / 2)).
  { destruct (div_round (double_of_Z n) (double_of_Z 2) Fn) as [F E]; rewrite ?En, ?E2 in *; try lra.
    - rewrite exact_half by lia. apply small_half. lia.
    - split; [exact F|]. rewrite E. apply exact_half. lia. }
  destruct D as [Fd Ed]. set (y := Bdiv mode_NE _ _) in *.
  pose proof (Bminus_correct 53 1024 _ _ mode_NE x y Fi Fd) as C. cbn [round_mode] in C. rewrite Ei, Ed in C.
  replace (IZR i + / 2 - IZR n / 2) with (IZR (2 * i + 1 - n) / 2) in C by (rewrite minus_IZR, plus_IZR, mult_IZR; lra).
  rewrite exact_half, Rlt_bool_true in C; [|apply small_half; lia|lia].
  destruct C as (E & F & _). split; [exact F|]. rewrite E. unfold from_center. rewrite minus_IZR, plus_IZR, mult_IZR. lra.
Qed.

Lemma neg_number (x : double) r : is_number x r -> is_number (neg (A := ar_double) x) (- r).
Proof.
  intros [F E]. unfold neg. cbn [a_sub a_of_Z ar_double]. destruct (double_of_Z_exact 0 ltac:(lia)) as [F0 E0].
  pose proof (Bminus_correct 53 1024 _ _ mode_NE (double_of_Z 0) x F0 F) as C. cbn [round_mode] in C. rewrite E0, E in C.
  assert (G : rnd (0 - r) = - r).
  { replace (0 - r) with (- r) by ring. apply round_generic; [apply valid_rnd_N|]. rewrite <- E. apply generic_format_opp. apply generic_format_B2R. }
  rewrite G in C.
  rewrite Rlt_bool_true in C. 2: { rewrite Rabs_Ropp, <- E. apply abs_B2R_lt_emax. }
  destruct C as (C & Fc & _). now split.
Qed.

(** ** Calls *)
Lemma polar_point (A : arith) (L : libm A) pro eq e graphic centric find p samples lines calls o : map_size samples lines ->
  polar_plot_map L pro eq e graphic centric find p samples lines = (calls, Ok o) ->
  forall k i, (0 <= k < lines)%Z -> (0 <= i < samples)%Z ->
  let X := a_sub A (a_add A (a_of_Z A k) half) (a_div A (a_of_Z A lines) (a_of_Z A 2)) in
  let Y := a_sub A (a_add A (a_of_Z A i) half) (a_div A (a_of_Z A samples) (a_of_Z A 2)) in
  exists latg,
    find (a_mul A (a_div A (a_mul A (a_of_Z A 2) (stereo_rho L eq e p (graphic (ps_max_lat p)))) (a_of_Z A (Z.min samples lines))) (l_hypot L Y X))
      (neg (l_pi2 L)) (l_pi2 L) (stereo_rho_impl L e (rho_coefficient L eq e)) = Ok latg /\
    plotted samples calls k i (centric (if ps_north p then latg else neg latg),
      l_atan2 L (if (ps_north p && pro) || (negb (ps_north p) && negb pro) then Y else neg Y) X).
Proof.
  intros Sz E k i Hk Hi. cbv zeta. unfold polar_plot_map in E. cbv zeta in E.
  match type of E with plot_loops _ _ ?r = _ => set (row := r) in E end.
  destruct (loops_spec samples lines row calls (Ok o) Sz E) as (_ & _ & _ & D).
  destruct (D o eq_refl k i Hk Hi) as (f & c & Rk & Fi & Hc). unfold row in Rk. apply Ok_inj in Rk. subst f.
  apply bind_inv in Fi. destruct Fi as (latg & Fd & Fi). exists latg. split; [exact Fd|]. apply Hc.
  apply Ok_inj in Fi. now subst c.
Qed.

(** ** Longitudes *)
Theorem polar_longitudes X fuel status left_over removable m c w w' r j f b max_lat north :
  ieee X -> (forall n, status n = 0%Z) -> ready_command m -> fits_size m -> accurate (x_scale X) ->
  command_of X fuel m = Some c -> execute status left_over removable c w = (w', Ok r) ->
  mc_projection m = PolarStereographic b max_lat north -> (mc_samples m < 2 ^ 52)%Z -> (mc_lines m < 2 ^ 52)%Z ->
  nth_error (mc_images m) j = Some f -> if_limits f = ex_empty -> if_source f = F_longitude ->
  exists t axes cards d rest,
    w_file w' = new_file (Hdu t axes cards d :: rest) /\
    forall k i, (0 <= k < mc_lines m)%Z -> (0 <= i < mc_samples m)%Z ->
    exists side up, is_number side (sideways north (prograde b) i (mc_samples m)) /\ is_number up (from_center k (mc_lines m)) /\
    let a := l_atan2 (x_libm X) side up in
    (is_finite (a : double) = true -> Rabs (B2R (a : double)) <= 4 ->
     exists v y z, d (element m (Z.of_nat j) k i) = Some (existT _ t v) /\
      stands_for t cards (Z.of_nat (List.length (mc_images m))) (Z.of_nat j + 1) v y /\
      - tolerance t longitude_plane <= y <= 360 + tolerance t longitude_plane /\
      Rabs (y - (B2R (a : double) / B2R d_degree + 360 * IZR z)) <= tolerance t longitude_plane + 1e-11).
Proof.
  intros I Hs R Fs A C E P Small Tall J Hl Hf.
  assert (Cm : computes X (if_source f) longitude_plane (longitude_data (A := ar_double) (x_circle X) (l_degree (x_libm X)) (x_fmod X))).
  { rewrite Hf. constructor. }
  destruct (computed_plane X fuel status left_over removable m c w w' r j f _ _ Hs R Fs A C E J Hl Cm)
    as (params & t & axes & cards & d & rest & o & Pp & Pt & Pf & Pc & Cell).
  exists t, axes, cards, d, rest. split; [assumption|]. intros k i Hk Hi.
  rewrite P in Pc. cbn [calls_of] in Pc. destruct (command_size m j f Fs J) as [Sz _].
  destruct (polar_new (x_libm X) max_lat north) as [q| |] eqn:Q; try discriminate.
  assert (Nq : ps_north q = north) by (unfold polar_new in Q; destruct (_ && _); [discriminate|]; apply Ok_inj in Q; now subst q).
  destruct (polar_point ar_double _ _ _ _ _ _ _ _ _ _ _ _ Sz Pc k i Hk Hi) as (latg & _ & Pl).
  pose proof (from_center_exact k (mc_lines m) Hk Tall) as Xe. pose proof (from_center_exact i (mc_samples m) Hi Small) as Ye.
  set (up := a_sub ar_double (a_add ar_double (a_of_Z ar_double k) _) _) in *. set (Y := a_sub ar_double (a_add ar_double (a_of_Z ar_double i) _) _) in *.
  rewrite Nq in Pl. match type of Pl with context [l_atan2 _ ?y up] => set (side := y) in Pl end. exists side, up.
  split. { unfold side, sideways. destruct Ye as [Fy Ey]. destruct north, (prograde b); cbn [andb orb negb Bool.eqb]; 
    try apply (neg_number Y); try assumption; now split. }
  split; [exact Xe|]. intros a Fa Ba. fold a in Pl.
  destruct (Cell k i _ Hk Hi Pl) as (v & Ev & St & _). cbn [fst snd] in St.
  destruct degree_val as [_ DV].
  destruct (RunAngle_Proofs.longitude_value (x_fmod X) a (B2R a / B2R d_degree) (i_fmod X I) Fa) as (x & Ex & Fx & Bx & z & Nx).
  { replace (B2R a - B2R a / B2R d_degree * B2R d_degree) with 0 by (field; lra). rewrite Rabs_R0. pose proof u_bounds. lra. }
  { unfold Rdiv. rewrite Rabs_mult, (Rabs_pos_eq (/ _)) by (left; apply Rinv_0_lt_compat; lra).
    apply Rmult_le_reg_r with (B2R d_degree); [lra|]. rewrite Rmult_assoc, Rinv_l by lra. lra. }
  rewrite (i_degree X I), (i_circle X I) in St.
  destruct (St x Ex Fx Bx) as (y & Sy & Ny). exists v, y, z. split; [exact Ev|]. split; [exact Sy|].
  abs Ny. abs Nx. split; [lra|]. apply Rabs_le. lra.
Qed.

(** ** Latitudes *)
Lemma radius_near (edge h : double) samples lines : (0 < samples < 2 ^ 52)%Z -> (0 < lines < 2 ^ 52)%Z ->
  is_finite edge = true -> 1e-3 <= B2R edge <= 1e12 -> is_finite h = true -> B2R h = 0 \/ / 4 <= B2R h <= 1e16 ->
  let rho := Bmult mode_NE (Bdiv mode_NE (Bmult mode_NE (double_of_Z 2) edge) (double_of_Z (Z.min samples lines))) h in
  is_finite rho = true /\
  Rabs (B2R rho - cell_radius (B2R edge) (B2R h) samples lines) <= 1e-15 * cell_radius (B2R edge) (B2R h) samples lines.
Proof.
  intros Ss Sl Fe Be Fh Bh. cbv zeta. unfold cell_radius. set (n := Z.min samples lines).
  assert (N : (0 < n < 2 ^ 52)%Z) by (unfold n; lia).
  destruct (double_of_Z_exact n ltac:(lia)) as [Fn En]. destruct (double_of_Z_exact 2 ltac:(lia)) as [F2 E2].
  assert (Nr : 1 <= IZR n <= 4503599627370496) by (split; apply IZR_le; lia).
  set (r := B2R edge) in *. set (w := IZR n) in *. pose proof u_value as UV. pose proof u_bounds as U.
  destruct (mult_round (double_of_Z 2) edge F2 Fe) as [Fa Ea]. { apply rnd_small with 4e12; [|lra]. rewrite E2. fold r. apply Rabs_le. lra. }
  rewrite E2 in Ea. fold r in Ea. set (a := Bmult mode_NE (double_of_Z 2) edge) in *.
  assert (Da : Rabs (B2R a - 2 * r) <= (2 * r) * ((0 + 1.1) * u)).
  { rewrite Ea. apply rel_step; [lra|lra|]. rewrite Rminus_eq_0, Rabs_R0. lra. }
  assert (IW : / 4503599627370496 <= / w <= 1).
  { split; [apply Rinv_le; lra|]. rewrite <- Rinv_1. apply Rinv_le; lra. }
  set (P := 2 * r * / w). assert (RP : 4e-19 <= P <= 2e12).
  { unfold P. split; [apply Rle_trans with (2e-3 * / 4503599627370496); [lra|apply Rmult_le_compat; lra]|].
    apply Rle_trans with (2e12 * 1); [apply Rmult_le_compat; lra|lra]. }
  assert (Db : Rabs (B2R a / w - P) <= P * ((0 + 1.1) * u)).
  { replace (B2R a / w - P) with ((B2R a - 2 * r) * / w) by (unfold P; field; lra). rewrite Rabs_mult, (Rabs_pos_eq (/ w)) by lra.
    replace (P * ((0 + 1.1) * u)) with (2 * r * ((0 + 1.1) * u) * / w) by (unfold P; ring). apply Rmult_le_compat_r; lra. }
  destruct (div_round a (double_of_Z n) Fa) as [Fb Eb].
  { rewrite En. fold w. lra. }
  { rewrite En. fold w. apply rnd_small with 4e12; [|lra]. abs Db. apply Rabs_le. nra. }
  rewrite En in Eb. fold w in Eb. set (b := Bdiv mode_NE a (double_of_Z n)) in *.
  pose proof (rel_step _ P (0 + 1.1) ltac:(lra) ltac:(lra) Db) as Db'. rewrite <- Eb in Db'.
  set (k := B2R h) in *. replace (2 * r * k / w) with (P * k) by (unfold P; field; lra).
  assert (K0 : 0 <= k) by lra.
  assert (Dc : Rabs (B2R b * k - P * k) <= P * k * ((0 + 1.1 + 1.1) * u)).
  { rewrite <- Rmult_minus_distr_r, Rabs_mult, (Rabs_pos_eq k) by lra.
    replace (P * k * ((0 + 1.1 + 1.1) * u)) with (P * ((0 + 1.1 + 1.1) * u) * k) by ring. apply Rmult_le_compat_r; lra. }
  assert (PK : 0 <= P * k <= 2e28).
  { split; [apply Rmult_le_pos; lra|]. apply Rle_trans with (2e12 * 1e16); [apply Rmult_le_compat; lra|lra]. }
  destruct (mult_round b h Fb Fh) as [Fc Ec]. { apply rnd_small with 4e28; [|lra]. fold k. abs Dc. apply Rabs_le. nra. }
  split; [exact Fc|]. rewrite Ec. fold k. destruct Bh as [Z|Bh].
  - rewrite Z, !Rmult_0_r, round_0 by apply valid_rnd_N. rewrite Rminus_eq_0, Rabs_R0. lra.
  - assert (1e-20 <= P * k) by (apply Rle_trans with (4e-19 * / 4); [lra|apply Rmult_le_compat; lra]).
    pose proof (rel_step _ (P * k) (0 + 1.1 + 1.1) ltac:(lra) ltac:(lra) Dc) as Dd. eapply Rle_trans; [exact Dd|].
    rewrite Rmult_comm. apply Rmult_le_compat_r; [lra|]. rewrite UV. lra.
Qed.

Theorem polar_latitudes X fuel status left_over removable m c w w' r j f b b' max_lat north :
  ieee X -> (forall n, status n = 0%Z) -> ready_command m -> fits_size m -> accurate (x_scale X) ->
  command_of X fuel m = Some c -> execute status left_over removable c w = (w', Ok r) ->
  mc_projection m = PolarStereographic b max_lat north -> (mc_samples m < 2 ^ 52)%Z -> (mc_lines m < 2 ^ 52)%Z ->
  nth_error (mc_images m) j = Some f -> if_limits f = ex_empty -> if_source f = F_latitude b' false ->
  exists q t axes cards d rest,
    polar_new (A := ar_double) (x_libm X) max_lat north = Ok q /\
    w_file w' = new_file (Hdu t axes cards d :: rest) /\
    let radius := stereo_rho_impl (A := ar_double) (x_libm X) (x_eccentricity X b)
                    (rho_coefficient (A := ar_double) (x_libm X) (Spheroid_Model.eq_rad b) (x_eccentricity X b)) in
    let edge := radius (if north then x_graphic X b (ps_max_lat q) else neg (A := ar_double) (x_graphic X b (ps_max_lat q))) in
    forall k i, (0 <= k < mc_lines m)%Z -> (0 <= i < mc_samples m)%Z ->
    exists side up rho latg,
      is_number side (from_center i (mc_samples m)) /\ is_number up (from_center k (mc_lines m)) /\
      (let h := l_hypot (x_libm X) side up in
       is_finite edge = true -> 1e-3 <= B2R edge <= 1e12 -> is_finite (h : double) = true -> B2R (h : double) = 0 \/ / 4 <= B2R (h : double) <= 1e16 ->
       is_finite rho = true /\
       Rabs (B2R rho - cell_radius (B2R edge) (B2R (h : double)) (mc_samples m) (mc_lines m)) <=
         1e-15 * cell_radius (B2R edge) (B2R (h : double)) (mc_samples m) (mc_lines m)) /\
      x_find X rho (neg (A := ar_double) d_pi2) d_pi2 radius = Ok latg /\
      let lat := x_centric X b (if north then latg else neg (A := ar_double) latg) in
      (is_finite lat = true -> Rabs (B2R lat) <= B2R d_pi2 ->
       exists v y, d (element m (Z.of_nat j) k i) = Some (existT _ t v) /\
        stands_for t cards (Z.of_nat (List.length (mc_images m))) (Z.of_nat j + 1) v y /\
        Rabs (y - B2R lat / B2R d_degree) <= tolerance t latitude_plane + 1e-12).
Proof.
  intros I Hs R Fs A C E P Small Tall J Hl Hf.
  assert (Cm : computes X (if_source f) latitude_plane (latitude_data (A := ar_double) (x_libm X) (x_graphic X b') false)).
  { rewrite Hf. constructor. }
  destruct (computed_plane X fuel status left_over removable m c w w' r j f _ _ Hs R Fs A C E J Hl Cm)
    as (params & t & axes & cards & d & rest & o & Pp & Pt & Pf & Pc & Cell).
  rewrite P in Pc. cbn [calls_of] in Pc. destruct (command_size m j f Fs J) as [Sz _].
  destruct (polar_new (x_libm X) max_lat north) as [q| |] eqn:Q; try discriminate.
  assert (Nq : ps_north q = north) by (unfold polar_new in Q; destruct (_ && _); [discriminate|]; apply Ok_inj in Q; now subst q).
  exists q, t, axes, cards, d, rest. split; [reflexivity|]. split; [assumption|]. intros radius edge k i Hk Hi.
  destruct (polar_point ar_double _ _ _ _ _ _ _ _ _ _ _ _ Sz Pc k i Hk Hi) as (latg & Fd & Pl).
  pose proof (from_center_exact k (mc_lines m) Hk Tall) as Xe. pose proof (from_center_exact i (mc_samples m) Hi Small) as Ye.
  set (up := a_sub ar_double (a_add ar_double (a_of_Z ar_double k) _) _) in *. set (side := a_sub ar_double (a_add ar_double (a_of_Z ar_double i) _) _) in *.
  unfold stereo_rho in Fd. rewrite Nq in Pl, Fd. rewrite (i_pi2 X I) in Fd. fold radius in Fd. fold edge in Fd.
  exists side, up. eexists. exists latg. split; [exact Ye|]. split; [exact Xe|]. split; [|split; [exact Fd|]].
  { intros h Fe Be Fh Bh. apply radius_near; try assumption; lia. }
  intros lat Fl B. fold lat in Pl. destruct (Cell k i _ Hk Hi Pl) as (v & Ev & St & _). cbn [fst snd] in St.
  set (lon := l_atan2 _ _ _) in *. exists v.
  destruct (latitude_double_range (x_libm X) (x_graphic X b') false lat lon (i_pi2 X I) (i_degree X I) (finite_not_nan _ Fl) ltac:(discriminate)) as [In _].
  destruct (In (conj Fl B)) as (x & Rx & Fdx & Bx). destruct (St x Rx Fdx Bx) as (y & Sy & Ny). exists y. split; [exact Ev|]. split; [exact Sy|].
  assert (x = Bdiv mode_NE lat d_degree) as ->.
  { unfold latitude_data in Rx. rewrite (i_degree X I) in Rx. destruct (_ || _) in Rx; [discriminate|]. cbv zeta iota in Rx. symmetry.
    now injection Rx. }
  pose proof u_value as UV. destruct degree_val as [_ DV]. destruct pi2_val as [_ P2].
  assert (Bd : Rabs (B2R lat / B2R d_degree) <= 91).
  { unfold Rdiv. rewrite Rabs_mult, (Rabs_pos_eq (/ _)) by (left; apply Rinv_0_lt_compat; lra).
    apply Rmult_le_reg_r with (B2R d_degree); [lra|]. rewrite Rmult_assoc, Rinv_l by lra. abs P2. rewrite Rmult_1_r. lra. }
  destruct (degrees_near lat (B2R lat / B2R d_degree) 0 91 Fl) as [_ Qn]; try lia; try lra.
  { replace (B2R lat - B2R lat / B2R d_degree * B2R d_degree) with 0 by (field; lra). rewrite Rabs_R0. lra. }
  abs Qn. abs Ny. apply Rabs_le. lra.
Qed.

(** ** From the text *)
Lemma edge_made X b o m q north : ieee X ->
  polar_new (A := ar_double) (x_libm X) m north = Ok q ->
  match o with
  | Some (_, _, Some l) => lat_of (l_degree (x_libm X)) (x_centric X) b l = Some m
  | _ => m = B754_nan
  end -> edge_says X b o (ps_max_lat q).
Proof.
  intros I Q H. unfold polar_new in Q. cbn [a_isnan a_abs a_mul ar_double] in Q.
  destruct (double_of_Z_exact 0 ltac:(lia)) as [F0 E0]. destruct (double_of_Z_exact 90 ltac:(lia)) as [F9 E9].
  assert (N : m = B754_nan -> is_number (ps_max_lat q) 0).
  { intros ->. cbn in Q. apply Ok_inj in Q. subst q. cbn [ps_max_lat]. split; reflexivity. }
  destruct o as [[[av nt] [l|]]|]; cbn [edge_says]; try now apply N.
  exists m. split; [exact H|]. intros F. rewrite (finite_not_nan _ F) in Q. cbn [negb andb] in Q.
  destruct (a_le ar_double (a_of_Z ar_double 90) (Babs m)) eqn:L in Q; [discriminate|]. apply Ok_inj in Q. subst q. cbn [ps_max_lat].
  rewrite (i_degree X I). destruct degree_val as [FD DV].
  assert (B : Rabs (B2R m) < 90).
  { apply Rnot_le_lt. intros Hm. enough (a_le ar_double (a_of_Z ar_double 90) (Babs m) = true) by congruence.
    unfold a_le. cbn [a_isnan a_lt a_of_Z ar_double]. rewrite (finite_not_nan _ F9), is_nan_Babs, (finite_not_nan _ F). cbn [negb andb].
    rewrite flt_le; [reflexivity|rewrite is_nan_Babs; now apply finite_not_nan|now apply finite_not_nan|].
    rewrite !fval_finite, E9, B2R_Babs by (rewrite ?is_finite_Babs; assumption). exact Hm. }
  destruct (mult_near m d_degree 2 F FD) as [Fm Em]; [|lra|].
  { rewrite Rabs_mult, (Rabs_pos_eq (B2R d_degree)) by lra. apply Rle_trans with (90 * 0.0174532925200); [apply Rmult_le_compat; try apply Rabs_pos; lra|lra]. }
  split; [exact Fm|]. eapply Rle_trans; [exact Em|]. pose proof u_value as UV. pose proof eta_u as T. rewrite UV in *. lra.
Qed.

Lemma polar_projection X b o x : projection_of (x_fmod X) (l_degree (x_libm X)) (x_centric X) (constructs X) b (T_p_stereo o) = Some x ->
  exists d, x = PolarStereographic b d (pole_says o) /\
    match o with
    | Some (_, _, Some l) => lat_of (l_degree (x_libm X)) (x_centric X) b l = Some d
    | _ => d = B754_nan
    end.
Proof.
  intros Pm. unfold projection_of in Pm. destruct o as [[[av nt] [l|]]|]; cbn [projection_args optional obind] in Pm.
  - destruct (lat_of _ _ b l) as [y|] eqn:L; cbn [obind or_else] in Pm; [|discriminate]. exists y.
    destruct (constructs X _) in Pm; cbn [nothing_thrown] in Pm; [discriminate|]. injection Pm as <-. now split.
  - eexists. destruct (constructs X _) in Pm; cbn [nothing_thrown] in Pm; [discriminate|]. injection Pm as <-. now split.
  - eexists. destruct (constructs X _) in Pm; cbn [nothing_thrown] in Pm; [discriminate|]. injection Pm as <-. now split.
Qed.

Theorem polar_map X fuel status left_over removable u d0 ts cmds n e o :
  ieee X -> (forall n, status n = 0%Z) -> accurate (x_scale X) -> in_force u d0 ->
  unmixed ts -> commands_of X (texts u ts) = Ok (Some cmds) ->
  nth_error (maps_of ts) n = Some e -> me_projection e = T_p_stereo o ->
  exists m b, nth_error cmds n = Some m /\ body_spheroid (me_prograde e) (me_radii e) = Ok b /\
  forall c w w' r, fits_size m -> (mc_lines m < 2 ^ 52)%Z -> (mc_samples m < 2 ^ 52)%Z ->
  command_of X fuel m = Some c -> execute status left_over removable c w = (w', Ok r) ->
  forall j p, nth_error (me_plane e :: me_more_planes e) j = Some p -> limits_say d0 (pe_range p) = Some ex_empty ->
  (pe_type p = T_longitude ->
   exists t axes cards d rest, w_file w' = new_file (Hdu t axes cards d :: rest) /\
   forall k i, (0 <= k < mc_lines m)%Z -> (0 <= i < mc_samples m)%Z ->
   exists side up, is_number side (sideways (pole_says o) (prograde b) i (mc_samples m)) /\ is_number up (from_center k (mc_lines m)) /\
   let a : double := l_atan2 (x_libm X) side up in
   (is_finite a = true -> Rabs (B2R a) <= 4 ->
    exists v y z, d (element m (Z.of_nat j) k i) = Some (existT _ t v) /\
     stands_for t cards (Z.of_nat (List.length (mc_images m))) (Z.of_nat j + 1) v y /\
     - tolerance t longitude_plane <= y <= 360 + tolerance t longitude_plane /\
     Rabs (y - (B2R a / B2R d_degree + 360 * IZR z)) <= tolerance t longitude_plane + 1e-11)) /\
  (pe_type p = T_latitude None \/ pe_type p = T_latitude (Some Centric) ->
   exists edge t axes cards d rest, edge_says X b o edge /\ w_file w' = new_file (Hdu t axes cards d :: rest) /\
   let radius := stereo_rho_impl (A := ar_double) (x_libm X) (x_eccentricity X b)
                   (rho_coefficient (A := ar_double) (x_libm X) (Spheroid_Model.eq_rad b) (x_eccentricity X b)) in
   let rim : double := radius (seen_at (pole_says o) (x_graphic X b edge)) in
   forall k i, (0 <= k < mc_lines m)%Z -> (0 <= i < mc_samples m)%Z ->
   exists side up rho latg,
     is_number side (from_center i (mc_samples m)) /\ is_number up (from_center k (mc_lines m)) /\
     (let h : double := l_hypot (x_libm X) side up in
      is_finite rim = true -> 1e-3 <= B2R rim <= 1e12 -> is_finite h = true -> B2R h = 0 \/ / 4 <= B2R h <= 1e16 ->
      is_finite rho = true /\
      Rabs (B2R rho - cell_radius (B2R rim) (B2R h) (mc_samples m) (mc_lines m)) <=
        1e-15 * cell_radius (B2R rim) (B2R h) (mc_samples m) (mc_lines m)) /\
     x_find X rho (neg (A := ar_double) d_pi2) d_pi2 radius = Ok latg /\
     let lat := x_centric X b (seen_at (pole_says o) latg) in
     (is_finite lat = true -> Rabs (B2R lat) <= B2R d_pi2 ->
      exists v y, d (element m (Z.of_nat j) k i) = Some (existT _ t v) /\
       stands_for t cards (Z.of_nat (List.length (mc_images m))) (Z.of_nat j + 1) v y /\
       Rabs (y - B2R lat / B2R d_degree) <= tolerance t latitude_plane + 1e-12)).
Proof.
  intros I Hs A D0 U H N P. destruct (entry_command X u ts cmds n e U H N) as (d1 & m & b & D & Nm & FI & Hb & Pm & _ & Im).
  pose proof (force_defaults u d0 D0) as D'. rewrite D in D'. injection D' as ->.
  exists m, b. split; [exact Nm|]. split; [exact Hb|]. intros c w w' r Fs Hl Hs' C E j p J R.
  destruct (Im j p J) as (f & Jf & Lf & S1 & S2). rewrite R in Lf. injection Lf as Lf. symmetry in Lf.
  destruct (polar_projection X b o (mc_projection m)) as (x & Pm' & Px). { rewrite <- P. exact Pm. }
  split.
  - intros T. specialize (S2 T).
    exact (polar_longitudes X fuel status left_over removable m c w w' r j f b x (pole_says o) I Hs (input_ready X m FI) Fs A C E Pm' Hs' Hl Jf Lf S2).
  - intros T. assert (Sf : if_source f = F_latitude b false) by (destruct T as [T|T]; now rewrite (S1 _ T)).
    destruct (polar_latitudes X fuel status left_over removable m c w w' r j f b b x (pole_says o) I Hs (input_ready X m FI) Fs A C E Pm' Hs' Hl Jf Lf Sf)
      as (q & t & axes & cards & d & rest & Q & Hf & El).
    exists (ps_max_lat q), t, axes, cards, d, rest. split; [exact (edge_made X b o x q _ I Q Px)|]. split; [exact Hf|]. exact El.
Qed.

(** ** A program to run: the search finds 1/2, atan2 is its first argument. *)
From Verif Require Import RunCase_Proofs.
Definition finding (X : outside) : outside :=
  Outside (x_libm (searching X)) (x_scale X) (x_long X) (x_fmod X) (x_acos X) (x_circle X) (x_au X) (x_max_range X)
    (fun _ _ _ _ => Ok (half (A := ar_double))) (x_roots X)
    (x_graphic X) (x_centric X) (x_radius X) (x_eccentricity X) (x_mu X) (x_mu0 X) (x_cos_phase X) (x_file X) (x_header X) (x_geometry X).
Lemma finding_ieee : ieee (finding the_program).
Proof. constructor; try reflexivity. exact remainder_spec. Qed.
Definition polar_entry (prograde north : bool) (p : plane_type) : map_entry :=
  MapEntry "map.fits" None None [] [] "Earth" (given_radii (A := ar_double) (double_of_Z 6378) (double_of_Z 6357)) prograde
    None None (Some 16%Z) None None (T_p_stereo (Some (None, north, None))) None (digit 4) (digit 2) (PlaneEntry None no_range p) [].
Definition polar_run (prograde north : bool) (p : plane_type) : option (list (option Z)) :=
  first_run (finding the_program) (polar_entry prograde north p) the_cells.
