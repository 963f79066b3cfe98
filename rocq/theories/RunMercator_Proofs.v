(** Proofs for C110. *)
From Coq Require Import List ZArith Reals Bool String Lra Lia Psatz.
From Flocq Require Import Core BinarySingleNaN.
From Verif Require Import Base BaseFacts Flt FltFacts Num Maths_Model Spheroid_Model Extrema_Model Extrema_Spec MakeMap_Model MakeMap_Spec MakeMap_Proofs
  Proj_Model Proj_Spec Proj_Proofs Virtual_Model Virtual_Spec Virtual_Proofs VirtualPlane_Proofs Params_Model
  Fits_Model Fits_Spec Command_Model Command_Spec Command_Proofs Input_Model Entry_Model Parse_Model Parse_Spec Parse_Proofs
  Run_Model Run_Spec RunAngle_Proofs RunScale_Proofs Run_Proofs RunPlane_Proofs RunMercator_Spec.
Import ListNotations.
Open Scope R_scope.

#[local] Existing Instance prec53.
#[local] Existing Instance emax53.
Local Ltac abs H := apply Rabs_le_inv in H.

Lemma mercator_point (A : arith) L pro e (centric : A -> A) find samples lines calls o : map_size samples lines -> (0 < samples)%Z ->
  mercator_plot_map L pro e centric find samples lines = (calls, Ok o) ->
  forall k, (0 <= k < lines)%Z -> exists latg,
    find (a_sub A (a_mul A (a_mul A (a_div A (a_add A (a_of_Z A k) half) (a_of_Z A lines)) (a_of_Z A 2))
                  (a_mul A (a_div A (a_of_Z A lines) (a_of_Z A samples)) (l_pi L)))
                  (a_mul A (a_div A (a_of_Z A lines) (a_of_Z A samples)) (l_pi L)))
      (neg (l_pi2 L)) (l_pi2 L) (mercator_x L e) = Ok latg /\
    forall i, (0 <= i < samples)%Z -> plotted samples calls k i (centric latg, mercator_longitude L pro i samples).
Proof.
  intros Sz S0 E k Hk. unfold mercator_plot_map in E. cbv zeta in E.
  match type of E with plot_loops _ _ ?r = _ => set (row := r) in E end.
  destruct (loops_spec samples lines row calls (Ok o) Sz E) as (_ & _ & _ & D).
  destruct (D o eq_refl k 0%Z Hk ltac:(lia)) as (f & _ & Rk & _). pose proof Rk as Rk'. unfold row in Rk'.
  apply bind_inv in Rk'. destruct Rk' as (latg & Fd & _). exists latg. split; [exact Fd|].
  intros i Hi. destruct (D o eq_refl k i Hk Hi) as (f' & c & Rk' & Fi & Hc). apply Hc.
  unfold row in Rk'. rewrite Fd in Rk'. cbn [bind] in Rk'. apply Ok_inj in Rk'. subst f'. apply Ok_inj in Fi. subst c. reflexivity.
Qed.

(** A fraction of a number of at most [Q]. *)
Lemma part_near i n : (0 <= i < n)%Z -> (n < 2 ^ 52)%Z ->
  let a := Bdiv mode_NE (Bplus mode_NE (double_of_Z i) (half (A := ar_double))) (double_of_Z n) in
  is_finite a = true /\ Rabs (B2R a - fraction i n) <= u + eta.
Proof.
  intros I N. cbv zeta. destruct (middle_val i ltac:(lia)) as [Fi Ei]. destruct (double_of_Z_exact n ltac:(lia)) as [Fn En].
  set (x := Bplus mode_NE (double_of_Z i) (half (A := ar_double))) in *.
  assert (N0 : 0 < IZR n) by (apply IZR_lt; lia). pose proof (fraction_01 i n I) as F. unfold fraction in *.
  destruct (div_near x (double_of_Z n) 1) as [Fa Ea]; rewrite ?En, ?Ei in *; try assumption; try lra.
  { apply Rabs_le. lra. }
  split; [exact Fa|]. now rewrite Rmult_1_l in Ea.
Qed.

Lemma mercator_cell (L : libm ar_double) (pro : bool) i samples : l_degree L = d_degree -> l_2pi L = d_2pi ->
  (0 <= i < samples)%Z -> (samples < 2 ^ 52)%Z ->
  let lon := mercator_longitude (A := ar_double) L pro i samples in
  is_finite (lon : double) = true /\
  Rabs (B2R (lon : double) - circle_longitude pro i samples * B2R d_degree) <= 500 * u /\
  Rabs (circle_longitude pro i samples) <= 1000.
Proof.
  intros HD HP I N. unfold mercator_longitude. rewrite HD, HP. cbn [a_add a_sub a_mul a_div a_of_Z ar_double]. cbv zeta.
  destruct (part_near i samples I N) as [Fa Ea]. cbv zeta in Fa, Ea. cbn [a_add a_sub a_mul a_div a_of_Z ar_double] in *.
  set (a := Bdiv mode_NE _ _) in *. destruct twopi_val as [Fp Ep]. destruct degree_val as [FD DV].
  pose proof u_bounds as U. pose proof eta_u as T. pose proof eta_small as [T0 _]. pose proof (fraction_01 i samples I) as F.
  set (f := fraction i samples) in *. set (D := B2R d_degree) in *. set (P := B2R d_2pi) in *.
  assert (BP : 6 <= P <= 7) by (abs Ep; lra).
  assert (V : Rabs (B2R a * P - f * P) <= 8 * u).
  { rewrite <- Rmult_minus_distr_r, Rabs_mult, (Rabs_pos_eq P) by lra.
    apply Rle_trans with ((u + eta) * 7); [|lra]. apply Rmult_le_compat; try apply Rabs_pos; lra. }
  assert (W : Rabs (f * P - 360 * f * D) <= 8 * u).
  { replace (f * P - 360 * f * D) with (f * (P - 360 * D)) by ring. now apply frac_near. }
  assert (FP : 0 <= f * P <= 7). { split; [apply Rmult_le_pos; lra|]. apply Rle_trans with (1 * 7); [|lra]. apply Rmult_le_compat; lra. }
  destruct (mult_near a d_2pi 8) as [Fm Em]; try assumption; try lra.
  { fold P. abs V. apply Rabs_le. lra. }
  fold P in Em. set (m := Bmult mode_NE a d_2pi) in *.
  destruct (double_of_Z_exact 0 ltac:(lia)) as [Fz Ez].
  destruct (mult_near (double_of_Z 0) d_degree 0) as [Fo Eo]; try assumption; try lra.
  { rewrite Ez, Rmult_0_l, Rabs_R0. lra. }
  rewrite Ez, Rmult_0_l in Eo. set (o := Bmult mode_NE (double_of_Z 0) d_degree) in *.
  destruct (plus_near m o 9) as [Fl El]; try assumption; try lra.
  { abs Em. abs V. abs Eo. apply Rabs_le. lra. }
  set (l := Bplus mode_NE m o) in *.
  assert (X : Rabs (B2R l - 360 * f * D) <= 100 * u).
  { abs El. abs Em. abs V. abs W. abs Eo. apply Rabs_le. lra. }
  unfold circle_longitude. fold f. destruct pro.
  - destruct (minus_near d_2pi l 16) as [Fs Es]; try assumption; try lra.
    { fold P. abs X. abs W. apply Rabs_le. lra. }
    fold P in Es. split; [exact Fs|]. split; [|apply Rabs_le; lra]. abs Es. abs X. abs Ep. apply Rabs_le. lra.
  - split; [exact Fl|]. split; [|apply Rabs_le; lra]. abs X. apply Rabs_le. lra.
Qed.

Theorem mercator_longitudes X fuel status left_over removable m c w w' r j f b :
  ieee X -> (forall n, status n = 0%Z) -> ready_command m -> fits_size m -> accurate (x_scale X) ->
  command_of X fuel m = Some c -> execute status left_over removable c w = (w', Ok r) ->
  mc_projection m = Mercator b -> (mc_samples m < 2 ^ 52)%Z ->
  nth_error (mc_images m) j = Some f -> if_limits f = ex_empty -> if_source f = F_longitude ->
  exists params t axes cards d rest,
    populate_map_parameters (map (parameters_of X) (mc_images m)) (mc_params m) = Ok params /\
    type_of_bitpix (p_bitpix params) = Some t /\
    w_file w' = new_file (Hdu t axes cards d :: rest) /\
    forall k i, (0 <= k < mc_lines m)%Z -> (0 <= i < mc_samples m)%Z ->
    exists v y z, d (element m (Z.of_nat j) k i) = Some (existT _ t v) /\
      stands_for t cards (Z.of_nat (List.length (mc_images m))) (Z.of_nat j + 1) v y /\
      - tolerance t longitude_plane <= y <= 360 + tolerance t longitude_plane /\
      Rabs (y - (circle_longitude (prograde b) i (mc_samples m) + 360 * IZR z)) <= tolerance t longitude_plane + 1e-11.
Proof.
  intros I Hs R Fs A C E P Small J Hl Hf.
  assert (Cm : computes X (if_source f) longitude_plane (longitude_data (A := ar_double) (x_circle X) (l_degree (x_libm X)) (x_fmod X))).
  { rewrite Hf. constructor. }
  destruct (computed_plane X fuel status left_over removable m c w w' r j f _ _ Hs R Fs A C E J Hl Cm)
    as (params & t & axes & cards & d & rest & o & Pp & Pt & Pf & Pc & Cell).
  exists params, t, axes, cards, d, rest. repeat (split; [assumption|]). intros k i Hk Hi.
  rewrite P in Pc. cbn [calls_of] in Pc. destruct (command_size m j f Fs J) as [Sz _].
  destruct (mercator_point ar_double _ _ _ _ _ _ _ _ _ Sz (proj1 Fs) Pc k Hk) as (latg & _ & Pl). specialize (Pl i Hi).
  destruct (mercator_cell (x_libm X) (prograde b) i (mc_samples m) (i_degree X I) (i_2pi X I) Hi Small) as (Fl & Nl & Bl). cbv zeta in Fl, Nl.
  set (lon := mercator_longitude _ _ _ _) in *. destruct (Cell k i _ Hk Hi Pl) as (v & Ev & St & _). cbn [fst snd] in St.
  destruct (longitude_value (x_fmod X) lon _ (i_fmod X I) Fl Nl Bl) as (x & Ex & Fx & Bx & z & Nx).
  rewrite (i_degree X I), (i_circle X I) in St.
  destruct (St x Ex Fx Bx) as (y & Sy & Ny). exists v, y, z. split; [exact Ev|]. split; [exact Sy|].
  abs Ny. abs Nx. split; [lra|]. apply Rabs_le. lra.
Qed.

(** ** Lines *)
Lemma pi_val : is_finite d_pi = true /\ 3 <= B2R d_pi <= 4.
Proof.
  destruct (parts d_pi) as [[m e]|] eqn:P; vm_compute in P; [|discriminate P].
  destruct (parts_value (d_pi) _ _ P) as [F W]. injection P as <- <-. split; [exact F|]. rewrite W. cbn -[IZR]. lra.
Qed.

Lemma ordinate_near k samples lines : (0 <= k < lines)%Z -> (lines < 2 ^ 52)%Z -> (0 < samples < 2 ^ 52)%Z ->
  let xmax := Bmult mode_NE (Bdiv mode_NE (double_of_Z lines) (double_of_Z samples)) d_pi in
  let x := Bminus mode_NE (Bmult mode_NE (Bmult mode_NE (Bdiv mode_NE (Bplus mode_NE (double_of_Z k) (half (A := ar_double))) (double_of_Z lines)) (double_of_Z 2)) xmax) xmax in
  is_finite x = true /\ Rabs (B2R x - line_ordinate k samples lines) <= 2e-14 * (IZR lines / IZR samples).
Proof.
  intros K N HS. cbv zeta. destruct (part_near k lines K N) as [Fa Ea]. cbv zeta in Fa, Ea. set (a := Bdiv mode_NE (Bplus _ _ _) _) in *.
  destruct (double_of_Z_exact lines ltac:(lia)) as [Fn En]. destruct (double_of_Z_exact samples ltac:(lia)) as [Fs Es].
  destruct (double_of_Z_exact 2 ltac:(lia)) as [F2 E2]. destruct pi_val as [Fp Bp].
  pose proof u_bounds as U. pose proof u_value as UV. pose proof eta_small as [T0 T]. pose proof (fraction_01 k lines K) as F.
  assert (n0 : 1 <= IZR lines) by (apply IZR_le; lia). assert (s0 : 1 <= IZR samples) by (apply IZR_le; lia).
  assert (n1 : IZR lines <= 4503599627370496) by (apply IZR_le; lia). assert (s1 : IZR samples <= 4503599627370496) by (apply IZR_le; lia).
  set (q := IZR lines / IZR samples).
  assert (Q : / 4503599627370496 <= q <= 4503599627370496).
  { unfold q. split; apply Rmult_le_reg_r with (IZR samples); try lra; unfold Rdiv; rewrite ?Rmult_assoc, ?Rinv_l by lra; nra. }
  assert (QT : eta <= q * u / 1000000).
  { eapply Rle_trans; [exact T|]. apply Rle_trans with (/ 4503599627370496 * u / 1000000); [|unfold Rdiv; apply Rmult_le_compat_r; [lra|]; apply Rmult_le_compat_r; lra].
    rewrite UV. apply Rmult_le_reg_l with (IZR (2 ^ 200)); [apply IZR_lt; reflexivity|]. rewrite Rinv_r by (apply not_0_IZR; discriminate).
    change (IZR (2 ^ 200)) with (IZR 1606938044258990275541962092341162602522202993782792835301376). lra. }
  set (qu := q * u) in *. assert (QU : qu <= q / 1000000000) by (unfold qu; apply Rle_trans with (q * / 1000000000); [apply Rmult_le_compat_l; lra|lra]).
  assert (QU0 : 0 <= qu) by (unfold qu; apply Rmult_le_pos; lra).
  destruct (div_near (double_of_Z lines) (double_of_Z samples) q) as [Fq Eq]; rewrite ?En, ?Es; try assumption; try lra.
  { fold q. rewrite Rabs_pos_eq; lra. }
  rewrite En, Es in Eq. fold q in Eq. fold qu in Eq. set (dq := Bdiv mode_NE (double_of_Z lines) (double_of_Z samples)) in *.
  set (pi := B2R d_pi) in *.
  assert (V : Rabs (B2R dq * pi - q * pi) <= 5 * qu).
  { rewrite <- Rmult_minus_distr_r, Rabs_mult, (Rabs_pos_eq pi) by lra.
    apply Rle_trans with ((qu + eta) * 4); [|lra]. apply Rmult_le_compat; try apply Rabs_pos; lra. }
  assert (Qpi : 0 <= q * pi <= 4 * q) by (split; [apply Rmult_le_pos; lra|rewrite Rmult_comm; apply Rmult_le_compat_r; lra]).
  destruct (mult_near dq d_pi (5 * q)) as [Fm Em]; try assumption; try lra.
  { fold pi. abs V. apply Rabs_le. lra. }
  fold pi in Em. set (xm := Bmult mode_NE dq d_pi) in *. replace (5 * q * u) with (5 * qu) in Em by (unfold qu; ring).
  assert (XM : Rabs (B2R xm - q * pi) <= 11 * qu) by (abs Em; abs V; apply Rabs_le; lra).
  set (f := fraction k lines) in *.
  assert (uq : u <= / 1000000000) by lra.
  destruct (mult_near a (double_of_Z 2) 3) as [Fb Eb]; rewrite ?E2; try assumption; try lra.
  { abs Ea. pose proof eta_u. apply Rabs_le. lra. }
  rewrite E2 in Eb. set (b := Bmult mode_NE a (double_of_Z 2)) in *.
  assert (BB : Rabs (B2R b - 2 * f) <= 6 * u) by (abs Eb; abs Ea; pose proof eta_u; apply Rabs_le; lra).
  assert (BX : Rabs (B2R b * B2R xm - 2 * f * (q * pi)) <= 60 * qu).
  { replace (B2R b * B2R xm - 2 * f * (q * pi)) with (B2R b * (B2R xm - q * pi) + (B2R b - 2 * f) * (q * pi)) by ring.
    eapply Rle_trans; [apply Rabs_triang|]. rewrite (Rabs_mult (B2R b)), (Rabs_mult (B2R b - 2 * f)).
    assert (Rabs (B2R b) <= 3) by (abs BB; apply Rabs_le; lra).
    assert (Rabs (B2R b) * Rabs (B2R xm - q * pi) <= 3 * (11 * qu)) by (apply Rmult_le_compat; try apply Rabs_pos; lra).
    assert (Rabs (B2R b - 2 * f) * Rabs (q * pi) <= 24 * qu).
    { replace (24 * qu) with (6 * u * (4 * q)) by (unfold qu; ring). apply Rmult_le_compat; try apply Rabs_pos; try assumption. rewrite Rabs_pos_eq; lra. }
    lra. }
  assert (FQ : 0 <= f * (q * pi) <= 4 * q).
  { split; [apply Rmult_le_pos; lra|]. apply Rle_trans with (1 * (4 * q)); [|lra]. apply Rmult_le_compat; lra. }
  destruct (mult_near b xm (10 * q)) as [Fc Ec]; try assumption; try lra.
  { abs BX. apply Rabs_le. lra. }
  set (c := Bmult mode_NE b xm) in *. replace (10 * q * u) with (10 * qu) in Ec by (unfold qu; ring).
  destruct (minus_near c xm (20 * q)) as [Fx Ex]; try assumption; try lra.
  { abs Ec. abs BX. abs XM. apply Rabs_le. lra. }
  split; [exact Fx|]. replace (20 * q * u) with (20 * qu) in Ex by (unfold qu; ring).
  replace (line_ordinate k samples lines) with (2 * f * (q * pi) - q * pi).
  2: { unfold line_ordinate, f, fraction, q, pi. field; split; lra. }
  assert (Rabs (B2R (Bminus mode_NE c xm) - (2 * f * (q * pi) - q * pi)) <= 101 * qu + 2 * eta).
  { abs Ex. abs Ec. abs BX. abs XM. apply Rabs_le. lra. }
  eapply Rle_trans; [eassumption|]. apply Rle_trans with (q * (120 * u)); [fold qu; replace (q * (120 * u)) with (120 * qu) by (unfold qu; ring); lra|].
  rewrite Rmult_comm. apply Rmult_le_compat_r; [lra|]. rewrite UV. lra.
Qed.

Theorem mercator_latitudes X fuel status left_over removable m c w w' r j f b b' :
  ieee X -> l_pi (x_libm X) = d_pi -> (forall n, status n = 0%Z) -> ready_command m -> fits_size m -> accurate (x_scale X) ->
  command_of X fuel m = Some c -> execute status left_over removable c w = (w', Ok r) ->
  mc_projection m = Mercator b -> (mc_samples m < 2 ^ 52)%Z -> (mc_lines m < 2 ^ 52)%Z ->
  nth_error (mc_images m) j = Some f -> if_limits f = ex_empty -> if_source f = F_latitude b' false ->
  exists params t axes cards d rest,
    populate_map_parameters (map (parameters_of X) (mc_images m)) (mc_params m) = Ok params /\
    type_of_bitpix (p_bitpix params) = Some t /\
    w_file w' = new_file (Hdu t axes cards d :: rest) /\
    forall k, (0 <= k < mc_lines m)%Z -> exists x latg,
      is_finite x = true /\
      Rabs (B2R x - line_ordinate k (mc_samples m) (mc_lines m)) <= 2e-14 * (IZR (mc_lines m) / IZR (mc_samples m)) /\
      x_find X x (neg (A := ar_double) d_pi2) d_pi2 (mercator_x (A := ar_double) (x_libm X) (x_eccentricity X b)) = Ok latg /\
      let lat := x_centric X b latg in
      forall i, (0 <= i < mc_samples m)%Z ->
      exists v, d (element m (Z.of_nat j) k i) = Some (existT _ t v) /\
        (is_finite lat = true -> Rabs (B2R lat) <= B2R d_pi2 -> exists y,
         stands_for t cards (Z.of_nat (List.length (mc_images m))) (Z.of_nat j + 1) v y /\
         Rabs (y - B2R lat / B2R d_degree) <= tolerance t latitude_plane + 1e-12) /\
        (is_finite lat = true -> B2R d_pi2 < Rabs (B2R lat) -> blank_of t (p_blank params) = Some v).
Proof.
  intros I Hpi Hs R Fs A C E P Small Tall J Hl Hf.
  assert (Cm : computes X (if_source f) latitude_plane (latitude_data (A := ar_double) (x_libm X) (x_graphic X b') false)).
  { rewrite Hf. constructor. }
  destruct (computed_plane X fuel status left_over removable m c w w' r j f _ _ Hs R Fs A C E J Hl Cm)
    as (params & t & axes & cards & d & rest & o & Pp & Pt & Pf & Pc & Cell).
  exists params, t, axes, cards, d, rest. repeat (split; [assumption|]). intros k Hk.
  rewrite P in Pc. cbn [calls_of] in Pc. destruct (command_size m j f Fs J) as [Sz _].
  destruct (mercator_point ar_double _ _ _ _ _ _ _ _ _ Sz (proj1 Fs) Pc k Hk) as (latg & Fd & Pl).
  rewrite Hpi, (i_pi2 X I) in Fd. cbn [a_add a_sub a_mul a_div a_of_Z ar_double] in Fd.
  destruct (ordinate_near k (mc_samples m) (mc_lines m) Hk Tall (conj (proj1 Fs) Small)) as [Fx Ex]. cbv zeta in Fx, Ex.
  eexists. exists latg. split; [exact Fx|]. split; [exact Ex|]. split; [exact Fd|]. intros lat i Hi.
  specialize (Pl i Hi). destruct (Cell k i _ Hk Hi Pl) as (v & Ev & St & Bl). cbn [fst snd] in St, Bl. fold lat in St, Bl.
  exists v. split; [exact Ev|]. set (lon := mercator_longitude _ _ _ _) in *.
  destruct (Bool.bool_dec (is_finite lat) true) as [Fl|Nf]; [|split; intros Fl; contradiction].
  destruct (latitude_double_range (x_libm X) (x_graphic X b') false lat lon (i_pi2 X I) (i_degree X I) (finite_not_nan _ Fl) ltac:(discriminate)) as [In Out].
  split; intros _ B.
  - destruct (In (conj Fl B)) as (x & Rx & Fdx & Bx). destruct (St x Rx Fdx Bx) as (y & Sy & Ny). exists y. split; [exact Sy|].
    assert (x = Bdiv mode_NE lat d_degree) as ->.
    { unfold latitude_data in Rx. rewrite (i_degree X I) in Rx. destruct (_ || _) in Rx; [discriminate|]. cbv zeta iota in Rx. symmetry.
      now injection Rx. }
    pose proof u_value as UV. destruct degree_val as [_ DV]. destruct pi2_val as [_ P2].
    assert (Bd : Rabs (B2R lat / B2R d_degree) <= 91).
    { unfold Rdiv. rewrite Rabs_mult, (Rabs_pos_eq (/ _)) by (left; apply Rinv_0_lt_compat; lra).
      apply Rmult_le_reg_r with (B2R d_degree); [lra|]. rewrite Rmult_assoc, Rinv_l by lra. abs P2. rewrite Rmult_1_r. lra. }
    destruct (degrees_near lat (B2R lat / B2R d_degree) 0 91 Fl) as [_ Q]; try lia; try lra.
    { replace (B2R lat - B2R lat / B2R d_degree * B2R d_degree) with 0 by (field; lra). rewrite Rabs_R0. lra. }
    abs Q. abs Ny. apply Rabs_le. lra.
  - apply Bl. apply Out. intros [_ H]. lra.
Qed.

(** ** From the text *)
Lemma entry_command X u ts cmds n e : unmixed ts -> commands_of X (texts u ts) = Ok (Some cmds) ->
  nth_error (maps_of ts) n = Some e ->
  exists d m b, defaults_after u = Some d /\ nth_error cmds n = Some m /\ from_input X m /\ body_spheroid (me_prograde e) (me_radii e) = Ok b /\
    projection_of (x_fmod X) (l_degree (x_libm X)) (x_centric X) (constructs X) b (me_projection e) = Some (mc_projection m) /\
    grid_says d e = Some (mc_grid m) /\
    forall j p, nth_error (me_plane e :: me_more_planes e) j = Some p ->
    exists f, nth_error (mc_images m) j = Some f /\ limits_say d (pe_range p) = Some (if_limits f) /\
      (forall k, pe_type p = T_latitude k -> if_source f = F_latitude b (is_graphic k)) /\
      (pe_type p = T_longitude -> if_source f = F_longitude).
Proof.
  intros U H N. assert (H' := H). unfold commands_of in H. apply run_means in H; [|exact U]. destruct H as (d & Hd & H).
  destruct (Forall2_nth_r _ _ _ H n e N) as (m & Nm & Mm & _). exists d, m. unfold map_body in Mm.
  destruct (params_of e) as [pa|] eqn:Pa; cbn [obind] in Mm; [|discriminate].
  destruct (body_spheroid (me_prograde e) (me_radii e)) as [b| |] eqn:Hb; cbn [done obind] in Mm; try discriminate.
  exists b. split; [exact Hd|]. split; [exact Nm|]. split. { exists u, ts, cmds. split; [exact H'|]. eapply nth_error_In. exact Nm. }
  destruct (grid_says d e) as [g|] eqn:Hg; cbn [obind] in Mm; [|discriminate].
  destruct (projection_of _ _ _ _ b (me_projection e)) as [x|] eqn:Hx; cbn [obind] in Mm; [|discriminate].
  destruct (kept (positive_size (me_samples e))) as [sa|] eqn:Es; cbn [obind] in Mm; [|discriminate].
  destruct (kept (positive_size (me_lines e))) as [li|] eqn:El; cbn [obind] in Mm; [|discriminate].
  match type of Mm with obind ?y _ = _ => destruct y as [fs|] eqn:Hf; cbn [obind] in Mm; [|discriminate] end.
  injection Mm as <-. cbn [mc_projection mc_images mc_grid]. split; [reflexivity|]. split; [reflexivity|]. split; [reflexivity|].
  intros j p J. destruct (all_some_nth _ _ _ _ _ Hf J) as (f & Pf & Jf). exists f. split; [exact Jf|].
  unfold plane_of in Pf. destruct (limits_say d (pe_range p)) as [ex|] eqn:Hl; cbn [obind] in Pf; [|discriminate].
  destruct (source_of _ _ _ _ _ _ _ b _ (pe_type p)) as [s|] eqn:Hs; cbn [obind] in Pf; [|discriminate]. injection Pf as <-.
  cbn [if_limits if_source]. split; [reflexivity|]. split; intros; match goal with E : pe_type p = _ |- _ => rewrite E in Hs end;
    cbn [source_of] in Hs; now injection Hs as <-.
Qed.

Theorem mercator_map X fuel status left_over removable ts cmds n e o :
  ieee X -> l_pi (x_libm X) = d_pi -> (forall n, status n = 0%Z) -> accurate (x_scale X) ->
  unmixed ts -> commands_of X (texts None ts) = Ok (Some cmds) ->
  nth_error (maps_of ts) n = Some e -> me_projection e = T_mercator o ->
  exists m b, nth_error cmds n = Some m /\ body_spheroid (me_prograde e) (me_radii e) = Ok b /\
  forall c w w' r, fits_size m -> (mc_lines m < 2 ^ 52)%Z -> (mc_samples m < 2 ^ 52)%Z ->
  command_of X fuel m = Some c -> execute status left_over removable c w = (w', Ok r) ->
  forall j p, nth_error (me_plane e :: me_more_planes e) j = Some p -> pe_range p = no_range ->
  (pe_type p = T_longitude ->
   exists t axes cards d rest, w_file w' = new_file (Hdu t axes cards d :: rest) /\
   forall k i, (0 <= k < mc_lines m)%Z -> (0 <= i < mc_samples m)%Z ->
   exists v y z, d (element m (Z.of_nat j) k i) = Some (existT _ t v) /\
     stands_for t cards (Z.of_nat (List.length (mc_images m))) (Z.of_nat j + 1) v y /\
     - tolerance t longitude_plane <= y <= 360 + tolerance t longitude_plane /\
     Rabs (y - (circle_longitude (prograde b) i (mc_samples m) + 360 * IZR z)) <= tolerance t longitude_plane + 1e-11) /\
  (pe_type p = T_latitude None \/ pe_type p = T_latitude (Some Centric) ->
   exists t axes cards d rest, w_file w' = new_file (Hdu t axes cards d :: rest) /\
   forall k, (0 <= k < mc_lines m)%Z -> exists x latg,
     is_finite x = true /\
     Rabs (B2R x - line_ordinate k (mc_samples m) (mc_lines m)) <= 2e-14 * (IZR (mc_lines m) / IZR (mc_samples m)) /\
     x_find X x (neg (A := ar_double) d_pi2) d_pi2 (mercator_x (A := ar_double) (x_libm X) (x_eccentricity X b)) = Ok latg /\
     let lat := x_centric X b latg in
     is_finite lat = true -> Rabs (B2R lat) <= B2R d_pi2 ->
     forall i, (0 <= i < mc_samples m)%Z ->
     exists v y, d (element m (Z.of_nat j) k i) = Some (existT _ t v) /\
       stands_for t cards (Z.of_nat (List.length (mc_images m))) (Z.of_nat j + 1) v y /\
       Rabs (y - B2R lat / B2R d_degree) <= tolerance t latitude_plane + 1e-12).
Proof.
  intros I Hpi Hs A U H N P. destruct (entry_command X None ts cmds n e U H N) as (d0 & m & b & D & Nm & FI & Hb & Pm & _ & Im).
  exists m, b. split; [exact Nm|]. split; [exact Hb|]. intros c w w' r Fs Hl Hs' C E j p J R.
  destruct (Im j p J) as (f & Jf & Lf & S1 & S2).
  assert (Pm' : mc_projection m = Mercator b).
  { unfold projection_of in Pm. rewrite P in Pm. cbn [projection_args obind constructs nothing_thrown] in Pm. now injection Pm as <-. }
  assert (Lf' : if_limits f = ex_empty).
  { cbn [defaults_after] in D. injection D as <-. rewrite R in Lf. unfold limits_say in Lf. cbn [range_of obind fst snd] in Lf.
    cbn in Lf. now injection Lf as <-. }
  split.
  - intros T. specialize (S2 T).
    destruct (mercator_longitudes X fuel status left_over removable m c w w' r j f b I Hs (input_ready X m FI) Fs A C E Pm' Hs' Jf Lf' S2)
      as (params & t & axes & cards & d & rest & _ & _ & Hf & El).
    exists t, axes, cards, d, rest. split; [exact Hf|exact El].
  - intros T. assert (Sf : if_source f = F_latitude b false) by (destruct T as [T|T]; now rewrite (S1 _ T)).
    destruct (mercator_latitudes X fuel status left_over removable m c w w' r j f b b I Hpi Hs (input_ready X m FI) Fs A C E Pm' Hs' Hl Jf Lf' Sf)
      as (params & t & axes & cards & d & rest & _ & _ & Hf & El).
    exists t, axes, cards, d, rest. split; [exact Hf|]. intros k Hk. destruct (El k Hk) as (x & latg & Fx & Nx & Fd & Cells).
    exists x, latg. split; [exact Fx|]. split; [exact Nx|]. split; [exact Fd|]. cbv zeta in *. intros Fl Bl i Hi.
    destruct (Cells i Hi) as (v & Ev & St & _). destruct (St Fl Bl) as (y & Sy & Ny). exists v, y. auto.
Qed.

(** ** A program to run: the search returns the ordinate. *)
From Verif Require Import RunCase_Proofs.
Definition searching (X : outside) : outside :=
  Outside (Libm ar_double (fun x => x) (fun x => x) (fun x => x) (fun x => x) (fun x _ => x) (fun x _ => x) (fun x _ => x) (Bnearbyint mode_NA)
      d_pi d_2pi d_pi2 d_pi2 d_degree eps_double tiny_double)
    (x_scale X) (x_long X) (x_fmod X) (x_acos X) (x_circle X) (x_au X) (x_max_range X) (fun y _ _ _ => Ok y) (x_roots X)
    (x_graphic X) (x_centric X) (x_radius X) (x_eccentricity X) (x_mu X) (x_mu0 X) (x_cos_phase X) (x_file X) (x_header X) (x_geometry X).
Lemma searching_ieee : ieee (searching the_program).
Proof. constructor; try reflexivity. exact remainder_spec. Qed.
Definition mercator_entry (prograde : bool) (p : plane_type) : map_entry :=
  MapEntry "map.fits" None None [] [] "Earth" (given_radii (A := ar_double) (double_of_Z 6378) (double_of_Z 6357)) prograde
    None None (Some 16%Z) None None (T_mercator None) None (digit 4) (digit 2) (PlaneEntry None no_range p) [].
Definition mercator_run (prograde : bool) (p : plane_type) : option (list (option Z)) :=
  first_run (searching the_program) (mercator_entry prograde p) the_cells.
