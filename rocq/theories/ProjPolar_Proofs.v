(** Proofs about the polar stereographic projection (C51, C84). *)
From Coq Require Import List ZArith Reals Lra Lia Bool.
From Coquelicot Require Import Coquelicot.
From Flocq Require Import Core BinarySingleNaN.
From Verif Require Import Base BaseFacts Flt FltFacts Num Maths_Model Maths_Spec Maths_Proofs Spheroid_Model
  Spheroid_Proofs Proj_Model Proj_Spec Proj_Proofs ProjGrid_Proofs ProjGridR_Proofs ProjMerc_Proofs.
Import ListNotations.
Open Scope R_scope.
Local Notation mx := isometric_latitude.
Local Notation sr := stereographic_radius.

Section Radius.
Context (e : R) (He : 0 <= e < 1).

Lemma sr_exp x : - (PI / 2) < x < PI / 2 -> sr e x = exp (- mx e x).
Proof.
  intros H. destruct (half_angle x H) as [S C]. pose proof (t_bound e He x) as T.
  unfold sr, mx. rewrite exp_Ropp, exp_ln.
  2:{ apply Rmult_lt_0_compat; [apply tan_half_pos; exact H|apply exp_pos]. }
  replace (PI / 4 - x / 2) with (PI / 2 - (PI / 4 + x / 2)) by field. unfold tan. rewrite sin_shift, cos_shift.
  rewrite Rinv_mult. f_equal; [field; lra|].
  replace ((1 + e * sin x) / (1 - e * sin x)) with (/ ((1 - e * sin x) / (1 + e * sin x))) by (field; lra).
  unfold Rpower. rewrite ln_Rinv by (apply Rdiv_lt_0_compat; lra). rewrite <- exp_Ropp. f_equal. ring.
Qed.

Lemma sr_pole : sr e (PI / 2) = 0.
Proof. unfold sr. replace (PI / 4 - PI / 2 / 2) with 0 by field. rewrite tan_0. ring. Qed.

Lemma sr_pos x : - (PI / 2) < x < PI / 2 -> 0 < sr e x.
Proof. intros H. rewrite sr_exp by exact H. apply exp_pos. Qed.

Lemma sr_decreasing x y : - (PI / 2) < x -> x < y -> y <= PI / 2 -> sr e y < sr e x.
Proof.
  intros H1 H2 H3. destruct (Req_dec y (PI / 2)) as [->|N].
  - rewrite sr_pole. apply sr_pos. lra.
  - rewrite !sr_exp by lra. apply exp_increasing. pose proof (mx_increasing e He x y H1 H2 ltac:(lra)). lra.
Qed.

Lemma sr_order x y : - (PI / 2) < x <= PI / 2 -> - (PI / 2) < y <= PI / 2 -> (sr e y < sr e x <-> x < y).
Proof.
  intros Hx Hy. split; intros H.
  - destruct (Rtotal_order x y) as [L|[->|L]]; [exact L|lra|]. pose proof (sr_decreasing y x ltac:(lra) L ltac:(lra)). lra.
  - apply sr_decreasing; lra.
Qed.

Lemma sr_inj x y : - (PI / 2) < x <= PI / 2 -> - (PI / 2) < y <= PI / 2 -> sr e x = sr e y -> x = y.
Proof.
  intros Hx Hy H. destruct (Rtotal_order x y) as [L|[->|L]]; [|reflexivity|].
  - pose proof (proj2 (sr_order x y Hx Hy) L). lra.
  - pose proof (proj2 (sr_order y x Hy Hx) L). lra.
Qed.

Definition polar_coeff (eq : R) : R :=
  2 * eq * Rpower (1 + e) (- (1 - e) / 2) * Rpower (1 - e) (- (1 + e) / 2).

Lemma polar_coeff_pos eq : 0 < eq -> 0 < polar_coeff eq.
Proof. intros H. unfold polar_coeff. apply Rmult_lt_0_compat; [apply Rmult_lt_0_compat; [lra|apply exp_pos]|apply exp_pos]. Qed.

Lemma rho_coefficient_num low eq :
  rho_coefficient (libm_num PI low) (Num eq : ar_num) (Num e : ar_num) = Num (polar_coeff eq).
Proof.
  unfold rho_coefficient, neg. nums. rewrite !num_divide by lra. nums. rewrite !Req_bool_false by lra.
  rewrite !Rlt_bool_true by lra. cbn [num2]. unfold polar_coeff.
  replace ((0 - (1 - e)) / 2) with (- (1 - e) / 2) by field. replace ((0 - (1 + e)) / 2) with (- (1 + e) / 2) by field. reflexivity.
Qed.

Lemma stereo_rho_impl_num low C x : - (PI / 2) < x <= PI / 2 ->
  stereo_rho_impl (libm_num PI low) (Num e : ar_num) (Num C : ar_num) (Num x : ar_num) = Num (C * sr e x).
Proof.
  intros H. unfold stereo_rho_impl. nums. pose proof (t_bound e He x) as T. rewrite !num_divide by lra. nums.
  rewrite Req_bool_false.
  2:{ apply Rgt_not_eq. pose proof PI_RGT_0. apply cos_gt_0; lra. }
  rewrite (Req_bool_false (e / 2)) by lra. rewrite Rlt_bool_true by (apply Rdiv_lt_0_compat; lra). nums.
  unfold sr. f_equal. ring.
Qed.

Lemma stereo_rho_low low C :
  stereo_rho_impl (libm_num PI low) (Num e : ar_num) (Num C : ar_num) (Num (- (PI / 2)) : ar_num) = NaN.
Proof.
  unfold stereo_rho_impl. nums. rewrite (num_divide (- (PI / 2)) 2) by lra. nums.
  replace (PI / 4 - - (PI / 2) / 2) with (PI / 2) by field. rewrite cos_PI2, Req_bool_true by reflexivity. reflexivity.
Qed.
End Radius.

(** * Maps *)
Lemma polar_any (A : arith) (L : libm A) prograde eq_rad e graphic centric find p samples lines : map_size samples lines ->
  forall calls o, polar_plot_map L prograde eq_rad e graphic centric find p samples lines = (calls, o) ->
  in_order calls /\ inside (samples * lines) calls /\
  ((exists n, o = Ok n) -> map snd calls = offsets (samples * lines)).
Proof.
  intros Sz calls o E. unfold polar_plot_map in E. destruct (loops_spec _ _ _ _ _ Sz E) as (S & R & _ & _).
  split; [exact S|]. split; [exact R|]. intros Ok_. apply (loops_all _ _ _ _ _ Sz E Ok_).
  intros k f i Ef. apply Ok_inj in Ef. subst f. destruct (find _ _ _ _); discriminate.
Qed.

Lemma polar_new_spec low (x : num) north p :
  polar_new (libm_num PI low) (x : ar_num) north = Ok p ->
  exists d, -90 < d < 90 /\ (x = Num d \/ x = NaN /\ d = 0) /\ p = @Polar ar_num (Num (d * (PI / 180))) north.
Proof.
  unfold polar_new, a_le. destruct x as [|d]; nums; cbn [negb andb].
  - intros E. apply Ok_inj in E. exists 0. split; [lra|]. split; [auto|]. rewrite <- E. f_equal. f_equal. simpl. ring.
  - case Rlt_bool_spec; [|discriminate]. cbn [negb].
    intros H E. apply Ok_inj in E. exists d. split; [apply Rabs_def2 in H; lra|]. split; [auto|]. rewrite <- E. reflexivity.
Qed.

Lemma polar_range d : -90 < d < 90 -> - (PI / 2) < d * (PI / 180) < PI / 2.
Proof. intros H. pose proof PI_RGT_0. split; nra. Qed.

Section PolarMap.
Context (low eq pol : R) (Hp : 0 < pol) (Hep : pol <= eq) (prograde north : bool).
Context (find : ar_num -> ar_num -> ar_num -> (ar_num -> ar_num) -> outcome ar_num) (Ex : exact_finder find).
Context (samples lines : Z) (Sz : map_size samples lines) (S0 : (0 < samples)%Z) (L0 : (0 < lines)%Z).
Context (max_lat : R) (Hmax : - (PI / 2) < max_lat < PI / 2).
Local Notation e := (first_eccentricity eq pol).
Local Notation L := (libm_num PI low).
Let He := ecc_range eq pol Hp Hep.
Definition polar_edge : R := if north then graphic_latitude eq pol max_lat else - graphic_latitude eq pol max_lat.
Definition turned : bool := (north && prograde) || (negb north && negb prograde).

Lemma polar_map calls o :
  polar_plot_map L prograde (Num eq : ar_num) (Num e : ar_num) (num_graphic eq pol) (num_centric eq pol) find
    (@Polar ar_num (Num max_lat) north) samples lines = (calls, o) ->
  forall k i p, (0 <= i < samples)%Z -> plotted samples calls k i p ->
  exists latg lon, - (PI / 2) < latg <= PI / 2 /\ 
    sr e latg * IZR (Z.min samples lines) = 2 * sr e polar_edge * from_center samples lines k i /\
    p = (Num (centric_latitude eq pol (if north then latg else - latg)) : ar_num, Num lon : ar_num) /\
    from_center samples lines k i * cos lon = along_line lines k /\
    from_center samples lines k i * sin lon = (if turned then across samples i else - across samples i).
Proof.
  intros E k i p Hi Hpl. unfold polar_plot_map in E. destruct (loops_spec _ _ _ _ _ Sz E) as (_ & _ & V & _).
  destruct (V k i p Hi Hpl) as (f & Rk & Fi). apply Ok_inj in Rk. subst f.
  assert (ML : IZR (Z.min samples lines) <> 0) by (apply not_0_IZR; lia).
  assert (PE : - (PI / 2) < polar_edge < PI / 2).
  { assert (B : - (PI / 2) < graphic_latitude eq pol max_lat < PI / 2).
    { unfold graphic_latitude, atan_ktan. rewrite Req_bool_false by (apply Rgt_not_eq, cos_gt_0; lra). match goal with |- _ < atan ?a < _ => pose proof (atan_bound a); lra end. }
    unfold polar_edge. destruct north; lra. }
  assert (RM : stereo_rho L (Num eq : ar_num) (Num e : ar_num) (@Polar ar_num (Num max_lat) north) (num_graphic eq pol (Num max_lat)) =
     Num (polar_coeff e eq * sr e polar_edge)).
  { unfold stereo_rho. cbn [ps_north]. rewrite rho_coefficient_num by exact He. unfold num_graphic. cbn [num1].
    rewrite <- (stereo_rho_impl_num e He low) by lra. unfold polar_edge. destruct north; [reflexivity|].
    unfold neg. nums. f_equal. f_equal. ring. }
  cbn [ps_max_lat ps_north] in Fi. rewrite RM in Fi. rewrite num_half in Fi. revert Fi. nums.
  rewrite !(num_divide _ 2) by lra. rewrite num_divide by exact ML. nums.
  fold (across samples i) (along_line lines k).
  replace (IZR i + / 2 - IZR samples / 2) with (across samples i) by (unfold across; lra).
  replace (IZR k + / 2 - IZR lines / 2) with (along_line lines k) by (unfold along_line; lra).
  set (X := along_line lines k). set (Y := across samples i).
  unfold neg. nums. replace (0 - PI / 2) with (- (PI / 2)) by ring.
  destruct (find _ _ _ _) as [r| |] eqn:F; cbn [bind]; [|discriminate|discriminate]. intros Fi. apply Ok_inj in Fi.
  destruct (Ex _ _ _ _ _ F) as (x & -> & Hx & Fx). rewrite rho_coefficient_num in Fx by exact He.
  assert (Hx' : - (PI / 2) < x <= PI / 2).
  { destruct (Req_dec x (- (PI / 2))) as [->|N]; [|lra]. rewrite stereo_rho_low in Fx. discriminate. }
  rewrite stereo_rho_impl_num in Fx by assumption.
  set (lon := atan2 (if turned then Y else - Y) X).
  assert (D : hypot Y X = from_center samples lines k i).
  { unfold hypot, from_center. f_equal. fold X Y. ring. }
  exists x, lon. split; [exact Hx'|]. split; [|split].
  - assert (Fx' : polar_coeff e eq * sr e x = 2 * (polar_coeff e eq * sr e polar_edge) / IZR (Z.min samples lines) * hypot Y X) by congruence.
    pose proof (polar_coeff_pos e eq ltac:(lra)) as CP. rewrite D in Fx'.
    apply (Rmult_eq_reg_l (polar_coeff e eq)); [|lra]. rewrite <- Rmult_assoc, Fx'. field. exact ML.
  - injection Fi as <-. f_equal.
    + unfold num_centric. destruct north; cbn [num1]; [reflexivity|]. nums. cbn [num1]. f_equal. f_equal. ring.
    + unfold lon, turned. destruct north, prograde; cbn [andb orb negb]; nums; f_equal; f_equal; ring.
  - set (Y' := if turned then Y else - Y) in *.
    assert (D' : from_center samples lines k i = hypot X Y').
    { rewrite <- D. unfold hypot. f_equal. unfold Y'. destruct turned; ring. }
    destruct (Req_dec X 0) as [X0|NX]; [destruct (Req_dec Y' 0) as [Y0|NY]|].
    + rewrite D', X0, Y0. unfold hypot. rewrite Rmult_0_l, Rplus_0_l, sqrt_0. split; ring.
    + rewrite D'. unfold lon. destruct (atan2_polar X Y' (or_intror NY)) as (C & S & _). split; assumption.
    + rewrite D'. unfold lon. destruct (atan2_polar X Y' (or_introl NX)) as (C & S & _). split; assumption.
Qed.

(** The circle touching the smaller dimension carries MAX_LAT; inside it all
    points are closer to the pole. *)
Definition poleward (lat lat' : R) : Prop := if north then lat' < lat else lat < lat'.

Lemma poleward_graphic x y : - (PI / 2) < x <= PI / 2 -> - (PI / 2) < y <= PI / 2 ->
  (poleward (centric_latitude eq pol (if north then x else - x)) (centric_latitude eq pol (if north then y else - y)) <-> y < x).
Proof.
  intros Hx Hy.
  assert (M : forall u v, - (PI / 2) <= u <= PI / 2 -> - (PI / 2) <= v <= PI / 2 -> (centric_latitude eq pol u < centric_latitude eq pol v <-> u < v)).
  { intros u v Hu Hv. split; intros H.
    - destruct (Rtotal_order u v) as [A|[->|A]]; [exact A|lra|].
      destruct (latitudes_increasing eq pol Hp Hep v u ltac:(lra) A ltac:(lra)) as (B & _). lra.
    - destruct (latitudes_increasing eq pol Hp Hep u v ltac:(lra) H ltac:(lra)) as (B & _). exact B. }
  unfold poleward. destruct north; rewrite M by lra; split; lra.
Qed.

Lemma polar_layout calls o :
  polar_plot_map L prograde (Num eq : ar_num) (Num e : ar_num) (num_graphic eq pol) (num_centric eq pol) find
    (@Polar ar_num (Num max_lat) north) samples lines = (calls, o) ->
  forall k i lat lon, (0 <= i < samples)%Z -> plotted samples calls k i (Num lat : ar_num, lon) ->
    (from_center samples lines k i < IZR (Z.min samples lines) / 2 <-> poleward lat max_lat) /\
    (from_center samples lines k i = IZR (Z.min samples lines) / 2 <-> lat = max_lat) /\
    (from_center samples lines k i = 0 <-> lat = if north then PI / 2 else - (PI / 2)) /\
    (forall k' i' lat' lon', (0 <= i' < samples)%Z -> plotted samples calls k' i' (Num lat' : ar_num, lon') ->
       (from_center samples lines k i < from_center samples lines k' i' <-> poleward lat lat')).
Proof.
  intros E k i lat lon Hi Hpl.
  assert (MP : 0 < IZR (Z.min samples lines)) by (apply IZR_lt; lia).
  assert (PE : - (PI / 2) < polar_edge < PI / 2).
  { assert (B : - (PI / 2) < graphic_latitude eq pol max_lat < PI / 2).
    { unfold graphic_latitude, atan_ktan. rewrite Req_bool_false by (apply Rgt_not_eq, cos_gt_0; lra). match goal with |- _ < atan ?a < _ => pose proof (atan_bound a); lra end. }
    unfold polar_edge. destruct north; lra. }
  pose proof (sr_pos e He polar_edge PE) as SE.
  assert (CE : max_lat = centric_latitude eq pol (if north then polar_edge else - polar_edge)).
  { unfold polar_edge. destruct (latitudes eq pol Hp Hep max_lat ltac:(lra)) as (A & _). destruct north; [|rewrite Ropp_involutive]; symmetry; exact A. }
  destruct (polar_map calls o E k i _ Hi Hpl) as (x & l & Hx & EQ & EP & _).
  assert (El : lat = centric_latitude eq pol (if north then x else - x)) by congruence.
  set (d := from_center samples lines k i) in *.
  assert (DX : d = sr e x * (IZR (Z.min samples lines) / (2 * sr e polar_edge))).
  { apply (Rmult_eq_reg_l (2 * sr e polar_edge)); [|lra]. rewrite <- EQ. field. lra. }
  assert (FP : 0 < IZR (Z.min samples lines) / (2 * sr e polar_edge)) by (apply Rdiv_lt_0_compat; lra).
  set (F := IZR (Z.min samples lines) / (2 * sr e polar_edge)) in *.
  assert (DE : IZR (Z.min samples lines) / 2 = sr e polar_edge * F) by (unfold F; field; lra).
  assert (CI : forall u v, - (PI / 2) < u <= PI / 2 -> - (PI / 2) < v <= PI / 2 ->
     centric_latitude eq pol (if north then u else - u) = centric_latitude eq pol (if north then v else - v) -> u = v).
  { intros u v Hu Hv Huv. destruct (Rtotal_order u v) as [A|[A|A]]; [|exact A|].
    - apply (proj2 (poleward_graphic v u Hv Hu)) in A. unfold poleward in A. destruct north; lra.
    - apply (proj2 (poleward_graphic u v Hu Hv)) in A. unfold poleward in A. destruct north; lra. }
  split; [|split; [|split]].
  - rewrite El, CE, poleward_graphic, <- (sr_order e He polar_edge x) by lra. rewrite DX, DE. split; intros H.
    + apply Rmult_lt_reg_r in H; assumption.
    + apply Rmult_lt_compat_r; assumption.
  - rewrite DX, DE. split; intros H.
    + apply Rmult_eq_reg_r in H; [|lra]. apply (sr_inj e He) in H; [|lra|lra]. rewrite El, H. symmetry. exact CE.
    + rewrite El, CE in H. apply CI in H; [|lra|lra]. rewrite H. reflexivity.
  - assert (CP : (if north then PI / 2 else - (PI / 2)) = centric_latitude eq pol (if north then PI / 2 else - (PI / 2))).
    { unfold centric_latitude, atan_ktan. destruct north; [|rewrite cos_neg, sin_neg]; rewrite cos_PI2, sin_PI2, Req_bool_true by reflexivity;
        [rewrite Rlt_bool_true by lra|rewrite Rlt_bool_false by lra]; reflexivity. }
    rewrite DX. split; intros H.
    + assert (Z : sr e x = sr e (PI / 2)) by (rewrite sr_pole; apply Rmult_integral in H; destruct H; lra). apply (sr_inj e He) in Z; [|lra|pose proof PI_RGT_0; lra].
      rewrite El, Z. symmetry. exact CP.
    + rewrite El, CP in H. apply CI in H; [|lra|pose proof PI_RGT_0; lra]. rewrite H, sr_pole. ring.
  - intros k' i' lat' lon' Hi' Hpl'. destruct (polar_map calls o E k' i' _ Hi' Hpl') as (x' & l' & Hx' & EQ' & EP' & _).
    assert (El' : lat' = centric_latitude eq pol (if north then x' else - x')) by congruence.
    assert (DX' : from_center samples lines k' i' = sr e x' * F).
    { unfold F. apply (Rmult_eq_reg_l (2 * sr e polar_edge)); [|lra]. rewrite <- EQ'. field. lra. }
    rewrite El, El', poleward_graphic, <- (sr_order e He x' x) by lra. rewrite DX, DX'. split; intros H.
    + apply Rmult_lt_reg_r in H; assumption.
    + apply Rmult_lt_compat_r; assumption.
Qed.
End PolarMap.

(** * Scale *)
Section Scale.
Context (eq pol : R) (Hp : 0 < pol) (Hep : pol <= eq).
Local Notation e := (first_eccentricity eq pol).
Local Notation He := (ecc_range eq pol Hp Hep).

Lemma sr_derive x : - (PI / 2) < x < PI / 2 ->
  derivable_pt_lim (sr e) x (- sr e x * ((1 - e ^ 2) / ((1 - (e * sin x) ^ 2) * cos x))).
Proof.
  intros H. apply is_derive_Reals. apply (is_derive_ext_loc (fun x => exp (- mx e x))).
  { assert (Hd : 0 < Rmin (x + PI / 2) (PI / 2 - x)) by (apply Rmin_glb_lt; lra).
    exists (mkposreal _ Hd). intros y Hy. symmetry. apply sr_exp; [exact He|].
    change (Rabs (minus y x) < Rmin (x + PI / 2) (PI / 2 - x)) in Hy. unfold minus, plus, opp in Hy. cbn in Hy.
    apply Rabs_def2 in Hy. pose proof (Rmin_l (x + PI / 2) (PI / 2 - x)). pose proof (Rmin_r (x + PI / 2) (PI / 2 - x)). lra. }
  rewrite (sr_exp e He) by exact H.
  assert (D := mx_derive e He x H).
  evar_last.
  - apply (is_derive_comp exp (fun x => - mx e x)).
    + apply is_derive_Reals, derivable_pt_lim_exp.
    + apply (is_derive_opp (mx e)). exact D.
  - unfold scal, opp. cbn. unfold mult. cbn. ring.
Qed.

Lemma polar_conformal x : - (PI / 2) < x < PI / 2 ->
  azimuthal_scale eq pol (sr e) x (sr e x / surface_r eq pol x) /\ 0 < surface_r eq pol x.
Proof.
  intros H. destruct (merc_conformal eq pol Hp Hep x H) as (s & dh & S & D & K & R).
  assert (RP : 0 < surface_r eq pol x).
  { unfold surface_r. pose proof (Wg_pos eq pol Hp Hep x) as W. apply Rdiv_lt_0_compat; [|exact W].
    apply Rmult_lt_0_compat; [apply pow_lt; lra|apply cos_gt_0; lra]. }
  split; [|exact RP]. exists s, (- sr e x * ((1 - e ^ 2) / ((1 - (e * sin x) ^ 2) * cos x))).
  split; [exact S|]. split; [apply sr_derive; exact H|]. split; [|field; lra].
  assert (DU : dh = (1 - e ^ 2) / ((1 - (e * sin x) ^ 2) * cos x)).
  { eapply uniqueness_limite; [exact D|]. apply is_derive_Reals, mx_derive; [exact He|exact H]. }
  rewrite <- DU, <- K. set (k := Wg eq pol x / (eq ^ 2 * cos x)) in *.
  assert (KI : / surface_r eq pol x = k) by (apply (Rmult_eq_reg_r (surface_r eq pol x)); [rewrite R; apply Rinv_l; lra|lra]).
  unfold Rdiv. rewrite KI. ring.
Qed.

Lemma azimuthal_scale_val x k : azimuthal_scale eq pol (sr e) x k -> 0 < surface_r eq pol x -> k = sr e x / surface_r eq pol x.
Proof. intros (s & d & _ & _ & _ & E) P. rewrite <- E. field. lra. Qed.

Definition polar_dist (x : R) : R :=
  1 + Rpower (1 + e) (1 - 2 * e) * Rpower (1 - e) (1 + 2 * e) / (4 * eq * eq) * ((polar_coeff e eq * sr e x) * (polar_coeff e eq * sr e x)).

Lemma num_power x y : 0 < x -> (if Req_bool y 2 then Num (x * x) else if Rlt_bool 0 x then Num (Rpower x y) else NaN) = Num (Rpower x y).
Proof.
  intros H. rewrite Rlt_bool_true by exact H. case Req_bool_spec; [intros ->|reflexivity].
  replace 2 with (INR 2) by reflexivity. rewrite Rpower_pow by exact H. f_equal. ring.
Qed.

Lemma ps_distortion_num low max_lat x : - (PI / 2) < x <= PI / 2 ->
  ps_distortion (libm_num PI low) (Num eq : ar_num) (Num e : ar_num) (@Polar ar_num max_lat true) (Num x : ar_num) = Num (polar_dist x).
Proof.
  intros H. pose proof He as HE. unfold ps_distortion, stereo_rho, distortion_coefficient. cbn [ps_north].
  rewrite rho_coefficient_num, stereo_rho_impl_num by assumption. nums.
  rewrite !num_power by lra. rewrite (Req_bool_true 2) by reflexivity. nums. rewrite num_divide by nra. reflexivity.
Qed.

(** Extension of the local scale to the pole. *)
Definition pole_scale (x : R) : R :=
  Rpower ((1 + e * sin x) / (1 - e * sin x)) (e / 2) / (2 * (cos (PI / 4 - x / 2) * cos (PI / 4 - x / 2))) * (Wg eq pol x / eq ^ 2).

Lemma scale_extended x : - (PI / 2) < x < PI / 2 -> sr e x / surface_r eq pol x = pole_scale x.
Proof.
  intros H. unfold sr, pole_scale, surface_r. fold (Wg eq pol x). pose proof (Wg_pos eq pol Hp Hep x).
  assert (C : cos x = 2 * sin (PI / 4 - x / 2) * cos (PI / 4 - x / 2)).
  { rewrite <- sin_2a. replace (2 * (PI / 4 - x / 2)) with (PI / 2 - x) by field. symmetry. apply sin_shift. }
  pose proof (cos_gt_0 x ltac:(lra) ltac:(lra)) as CX.
  rewrite C. unfold tan. field. repeat split; try lra; nra.
Qed.

Lemma left_limit (f g : R -> R) a b : b < a -> continuity_pt f a -> continuity_pt g a ->
  (forall x, b < x < a -> f x = g x) -> f a = g a.
Proof.
  intros Hb Cf Cg E. destruct (Req_dec (f a) (g a)) as [|N]; [assumption|exfalso].
  assert (Ch : continuity_pt (fun x => f x - g x) a) by (apply continuity_pt_minus; assumption).
  destruct (Ch (Rabs (f a - g a)) ltac:(apply Rabs_pos_lt; lra)) as (d & Hd & D).
  set (x := Rmax ((a + b) / 2) (a - d / 2)).
  assert (X1 : b < x) by (apply Rlt_le_trans with ((a + b) / 2); [lra|apply Rmax_l]).
  assert (X2 : x < a) by (apply Rmax_lub_lt; lra).
  assert (X3 : a - d < x) by (apply Rlt_le_trans with (a - d / 2); [lra|apply Rmax_r]).
  specialize (D x). cbn in D. unfold R_dist in D.
  assert (D' : Rabs (f x - g x - (f a - g a)) < Rabs (f a - g a)).
  { apply D. split; [split; [exact I|lra]|]. rewrite Rabs_left by lra. lra. }
  rewrite (E x) in D' by lra. replace (g x - g x - (f a - g a)) with (- (f a - g a)) in D' by ring.
  rewrite Rabs_Ropp in D'. lra.
Qed.

Lemma derive_cont (f : R -> R) x : ex_derive f x -> continuity_pt f x.
Proof. intros [l H]. apply derivable_continuous_pt. exists l. apply is_derive_Reals. exact H. Qed.

Lemma polar_dist_cont : continuity_pt polar_dist (PI / 2).
Proof.
  pose proof He as HE. apply derive_cont. unfold polar_dist, sr, tan, Rpower. auto_derive.
  replace (PI / 4 + - (PI / 2 * / 2)) with 0 by field. rewrite cos_0, sin_PI2.
  repeat split; try lra; apply Rdiv_lt_0_compat; lra.
Qed.

Lemma pole_scale_cont : continuity_pt pole_scale (PI / 2).
Proof.
  pose proof He as HE. apply derive_cont. unfold pole_scale, Rpower, Wg. auto_derive.
  replace (PI / 4 + - (PI / 2 * / 2)) with 0 by field. rewrite cos_0, sin_PI2, cos_PI2.
  repeat split; try lra; [apply Rdiv_lt_0_compat; lra|nra].
Qed.

Lemma polar_dist_pole : polar_dist (PI / 2) = 1.
Proof. unfold polar_dist. rewrite sr_pole. field. lra. Qed.

Lemma ln_lt_x x : -1 < x -> x <> 0 -> ln (1 + x) < x.
Proof.
  intros H N. rewrite <- (ln_exp x) at 2. apply ln_increasing; [lra|]. apply exp_ineq1. exact N.
Qed.

Lemma polar_distortion_wrong : pol < eq ->
  ~ exists c, forall x, 0 <= x < PI / 2 -> exists k, azimuthal_scale eq pol (sr e) x k /\ polar_dist x = c * k.
Proof.
  intros Hlt (c & Hc). pose proof PI_RGT_0 as Ppi.
  assert (E : forall x, 0 <= x < PI / 2 -> polar_dist x = c * pole_scale x).
  { intros x Hx. destruct (Hc x Hx) as (k & K & E). rewrite E. f_equal.
    destruct (polar_conformal x ltac:(lra)) as (_ & RP). rewrite (azimuthal_scale_val x k K RP). apply scale_extended. lra. }
  assert (EP : polar_dist (PI / 2) = c * pole_scale (PI / 2)).
  { apply (left_limit polar_dist (fun x => c * pole_scale x) (PI / 2) 0); [lra|apply polar_dist_cont| |intros; apply E; lra].
    apply continuity_pt_mult; [apply continuity_pt_const; intros ? ?; reflexivity|apply pole_scale_cont]. }
  rewrite polar_dist_pole in EP. assert (E0 := E 0 ltac:(lra)).
  pose proof He as HE.
  assert (E1 : 0 < e). { assert (e <> 0); [|lra]. intros Z. pose proof (ecc_sq eq pol Hp Hep) as Q. rewrite Z in Q.
    assert ((pol / eq) ^ 2 < 1); [|lra]. assert (0 < pol / eq < 1); [|nra].
    split; [apply Rdiv_lt_0_compat; lra|]. apply (Rmult_lt_reg_r eq); [lra|]. unfold Rdiv. rewrite Rmult_assoc, Rinv_l by lra. lra. }
  assert (P2 : pole_scale (PI / 2) = Rpower ((1 + e) / (1 - e)) (e / 2) / 2 * (pol / eq ^ 2)).
  { unfold pole_scale, Wg. replace (PI / 4 - PI / 2 / 2) with 0 by field. rewrite cos_0, sin_PI2, cos_PI2.
    replace ((eq * 0) ^ 2 + (pol * 1) ^ 2) with (pol * pol) by ring. rewrite sqrt_square by lra.
    rewrite !Rmult_1_r. reflexivity. }
  assert (P0 : pole_scale 0 = 1 / eq).
  { unfold pole_scale, Wg. replace (PI / 4 - 0 / 2) with (PI / 4) by field. rewrite sin_0, cos_0, !Rmult_0_r.
    replace ((eq * 1) ^ 2 + 0 ^ 2) with (eq * eq) by ring. rewrite sqrt_square by lra.
    replace ((1 + 0) / (1 - 0)) with 1 by field. unfold Rpower. rewrite ln_1, Rmult_0_r, exp_0.
    rewrite cos_PI4. assert (Q : sqrt 2 * sqrt 2 = 2) by (apply sqrt_sqrt; lra).
    assert (0 < sqrt 2) by (apply sqrt_lt_R0; lra).
    replace (1 / sqrt 2 * (1 / sqrt 2)) with (1 / 2) by (rewrite <- Q at 1; field; lra). field. lra. }
  set (A := ln (1 + e)). set (B := ln (1 - e)).
  assert (EA : exp A = 1 + e) by (apply exp_ln; lra). assert (EB : exp B = 1 - e) by (apply exp_ln; lra).
  assert (BA : B < A) by (apply ln_increasing; lra).
  assert (D0 : polar_dist 0 = 1 + exp (- e * (A - B))).
  { unfold polar_dist, polar_coeff, sr. replace (PI / 4 - 0 / 2) with (PI / 4) by field.
    rewrite tan_PI4, sin_0, Rmult_0_r. replace ((1 + 0) / (1 - 0)) with 1 by field. unfold Rpower. fold A B.
    rewrite ln_1, Rmult_0_r, exp_0. f_equal.
    transitivity (exp ((1 - 2 * e) * A) * exp ((1 + 2 * e) * B) * (exp (- (1 - e) / 2 * A) * exp (- (1 - e) / 2 * A)) * (exp (- (1 + e) / 2 * B) * exp (- (1 + e) / 2 * B))).
    { field. lra. }
    rewrite <- !exp_plus. f_equal. field. }
  assert (PL : pol / eq = exp ((A + B) / 2)).
  { assert (Q : (pol / eq) ^ 2 = exp ((A + B) / 2) ^ 2).
    { replace ((pol / eq) ^ 2) with (1 - e ^ 2) by (rewrite (ecc_sq eq pol Hp Hep); ring).
      transitivity (exp A * exp B); [rewrite EA, EB; ring|].
      replace (exp ((A + B) / 2) ^ 2) with (exp ((A + B) / 2) * exp ((A + B) / 2)) by ring.
      rewrite <- !exp_plus. f_equal. field. }
    apply Rsqr_inj; [left; apply Rdiv_lt_0_compat; lra|left; apply exp_pos|].
    rewrite !Rsqr_pow2. exact Q. }
  rewrite P0, D0 in E0. rewrite P2 in EP.
  assert (LQ : ln ((1 + e) / (1 - e)) = A - B) by (unfold Rdiv; rewrite ln_mult, ln_Rinv by (try apply Rinv_0_lt_compat; lra); reflexivity).
  unfold Rpower in EP. rewrite LQ in EP.
  set (v := A - B) in *. assert (VP : 0 < v) by (unfold v; lra).
  (* the two equations, multiplied out *)
  assert (F1 : 2 = c / eq * exp (e / 2 * v) * exp ((A + B) / 2)).
  { transitivity (2 * (c * (exp (e / 2 * v) / 2 * (pol / eq ^ 2)))); [rewrite <- EP; ring|]. rewrite <- PL. field. lra. }
  assert (F2 : 1 + exp (- e * v) = c / eq) by (rewrite E0; field; lra).
  assert (F3 : exp (e / 2 * v) + exp (- (e / 2 * v)) = 2 * exp (- ((A + B) / 2))).
  { transitivity (c / eq * exp (e / 2 * v) * exp ((A + B) / 2) * exp (- ((A + B) / 2))); [|rewrite <- F1; reflexivity].
    rewrite <- F2. rewrite !(Rmult_assoc _ (exp ((A + B) / 2))), <- exp_plus. rewrite Rplus_opp_r, exp_0, Rmult_1_r.
    rewrite Rmult_plus_distr_r, Rmult_1_l, <- exp_plus. f_equal. f_equal. field. }
  assert (F4 : exp (v / 2) + exp (- (v / 2)) = 2 * exp (- ((A + B) / 2))).
  { transitivity ((exp A + exp B) * exp (- ((A + B) / 2))); [|rewrite EA, EB; ring]. rewrite Rmult_plus_distr_r, <- !exp_plus. unfold v. f_equal; f_equal; field. }
  rewrite (exp_Ropp (e / 2 * v)) in F3.
  assert (X1 : 1 < exp (e / 2 * v)) by (rewrite <- exp_0; apply exp_increasing; nra).
  assert (X2 : exp (e / 2 * v) < exp (v / 2)) by (apply exp_increasing; nra).
  rewrite (exp_Ropp (v / 2)) in F4. rewrite <- F4 in F3.
  set (a := exp (e / 2 * v)) in *. set (b := exp (v / 2)) in *.
  assert (Z : (b - a) * (a * b - 1) = 0).
  { replace ((b - a) * (a * b - 1)) with (a * b * ((b + / b) - (a + / a))) by (field; lra). rewrite <- F3. ring. }
  apply Rmult_integral in Z. destruct Z; nra.
Qed.

Lemma polar_distortion_sphere x : pol = eq -> - (PI / 2) < x < PI / 2 ->
  exists k, azimuthal_scale eq pol (sr e) x k /\ polar_dist x = 2 * eq * k.
Proof.
  intros Eq H. destruct (polar_conformal x H) as (K & _). eexists. split; [exact K|].
  rewrite scale_extended by exact H.
  assert (E0 : e = 0).
  { pose proof (ecc_sq eq pol Hp Hep) as Q. rewrite Eq in Q at 2. replace (eq / eq) with 1 in Q by (field; lra). nra. }
  unfold polar_dist, polar_coeff, pole_scale, Wg, sr. rewrite E0, Eq. rewrite !Rmult_0_l, ?Rplus_0_r, ?Rminus_0_r.
  unfold Rpower. rewrite !ln_1, ?Rmult_0_r, exp_0. replace (1 / 1) with 1 by field. rewrite ln_1, Rmult_0_r, exp_0.
  replace ((eq * cos x) ^ 2 + (eq * sin x) ^ 2) with (eq * eq).
  2:{ pose proof (sin2_cos2 x) as S. unfold Rsqr in S. transitivity (eq * eq * (sin x * sin x + cos x * cos x)); [rewrite S|]; ring. }
  rewrite sqrt_square by lra. unfold tan.
  assert (C : cos (PI / 4 - x / 2) <> 0) by (apply Rgt_not_eq, cos_gt_0; lra).
  pose proof (sin2_cos2 (PI / 4 - x / 2)) as S. unfold Rsqr in S.
  set (c := cos (PI / 4 - x / 2)) in *. set (s := sin (PI / 4 - x / 2)) in *.
  transitivity ((s * s + c * c) / (c * c)); [field; split; [exact C|lra]|rewrite S; field; split; [lra|exact C]].
Qed.

Lemma polar_sphere_num x : pol = eq -> - (PI / 2) < x < PI / 2 ->
  exists k, azimuthal_scale eq pol (sr e) x k /\
    forall low max_lat, ps_distortion (libm_num PI low) (Num eq : ar_num) (Num e : ar_num)
      (@Polar ar_num max_lat true) (Num x : ar_num) = Num (2 * eq * k).
Proof.
  intros Eq H. destruct (polar_distortion_sphere x Eq H) as (k & K & D). exists k. split; [exact K|].
  intros low m. rewrite ps_distortion_num, D by lra. reflexivity.
Qed.

Lemma polar_oblate_num low max_lat : pol < eq ->
  ~ exists c, forall x, 0 <= x < PI / 2 -> exists k, azimuthal_scale eq pol (sr e) x k /\
    ps_distortion (libm_num PI low) (Num eq : ar_num) (Num e : ar_num)
      (@Polar ar_num max_lat true) (Num x : ar_num) = Num (c * k).
Proof.
  intros H (c & C). apply (polar_distortion_wrong H). exists c. intros x Hx. destruct (C x Hx) as (k & K & D).
  exists k. split; [exact K|]. rewrite ps_distortion_num in D by (pose proof PI_RGT_0; lra). injection D. auto.
Qed.
End Scale.

(** * Statements for the constructed projection *)
Section Constructed.
Context (low eq pol : R) (Hp : 0 < pol) (Hep : pol <= eq) (prograde north : bool).
Context (find : ar_num -> ar_num -> ar_num -> (ar_num -> ar_num) -> outcome ar_num) (Ex : exact_finder find).
Context (samples lines : Z) (Sz : map_size samples lines) (S0 : (0 < samples)%Z) (L0 : (0 < lines)%Z).
Context (x : num) (p : polar ar_num) (New : polar_new (libm_num PI low) (x : ar_num) north = Ok p).

Lemma polar_built_layout calls o :
  polar_plot_map (libm_num PI low) prograde (Num eq : ar_num) (Num (first_eccentricity eq pol) : ar_num)
    (num_graphic eq pol) (num_centric eq pol) find p samples lines = (calls, o) ->
  exists d, (x = Num d \/ x = NaN /\ d = 0) /\
  forall k i q, (0 <= i < samples)%Z -> plotted samples calls k i q -> exists lat lon,
    q = (Num lat : ar_num, Num lon : ar_num) /\
    (from_center samples lines k i < IZR (Z.min samples lines) / 2 <->
       if north then d * (PI / 180) < lat else lat < d * (PI / 180)) /\
    (from_center samples lines k i = IZR (Z.min samples lines) / 2 <-> lat = d * (PI / 180)) /\
    (from_center samples lines k i = 0 <-> lat = if north then PI / 2 else - (PI / 2)) /\
    (forall k' i' lat' lon', (0 <= i' < samples)%Z -> plotted samples calls k' i' (Num lat' : ar_num, lon') ->
       (from_center samples lines k i < from_center samples lines k' i' <-> if north then lat' < lat else lat < lat')) /\
    from_center samples lines k i * cos lon = along_line lines k /\
    from_center samples lines k i * sin lon =
      (if Bool.eqb north prograde then across samples i else - across samples i).
Proof.
  intros E. destruct (polar_new_spec low x north p New) as (d & Hd & Hx & ->). exists d. split; [exact Hx|].
  apply polar_range in Hd. intros k i q Hi Hpl.
  destruct (polar_map low eq pol Hp Hep prograde north find Ex samples lines Sz S0 L0 _ Hd calls o E k i q Hi Hpl)
    as (latg & lon & _ & _ & -> & C & S).
  eexists _, lon. split; [reflexivity|].
  destruct (polar_layout low eq pol Hp Hep prograde north find Ex samples lines Sz S0 L0 _ Hd calls o E k i _ _ Hi Hpl)
    as (A1 & A2 & A3 & A4).
  split; [exact A1|]. split; [exact A2|]. split; [exact A3|]. split; [exact A4|]. split; [exact C|].
  rewrite S. unfold turned. destruct north, prograde; reflexivity.
Qed.

Lemma polar_built_radius calls o :
  polar_plot_map (libm_num PI low) prograde (Num eq : ar_num) (Num (first_eccentricity eq pol) : ar_num)
    (num_graphic eq pol) (num_centric eq pol) find p samples lines = (calls, o) ->
  exists edge, 0 < edge /\
  forall k i q, (0 <= i < samples)%Z -> plotted samples calls k i q -> exists latg,
    - (PI / 2) < latg <= PI / 2 /\ fst q = Num (centric_latitude eq pol (if north then latg else - latg)) /\
    sr (first_eccentricity eq pol) latg = edge * from_center samples lines k i.
Proof.
  intros E. destruct (polar_new_spec low x north p New) as (d & Hd & Hx & ->). apply polar_range in Hd.
  assert (ML : 0 < IZR (Z.min samples lines)) by (apply IZR_lt; lia).
  exists (2 * sr (first_eccentricity eq pol) (polar_edge eq pol north (d * (PI / 180))) / IZR (Z.min samples lines)). split.
  - apply Rdiv_lt_0_compat; [|exact ML]. apply Rmult_lt_0_compat; [lra|]. apply sr_pos; [apply ecc_range; assumption|].
    assert (B : - (PI / 2) < graphic_latitude eq pol (d * (PI / 180)) < PI / 2).
    { unfold graphic_latitude, atan_ktan. rewrite Req_bool_false by (apply Rgt_not_eq, cos_gt_0; lra). match goal with |- _ < atan ?a < _ => pose proof (atan_bound a); lra end. }
    unfold polar_edge. destruct north; lra.
  - intros k i q Hi Hpl.
    destruct (polar_map low eq pol Hp Hep prograde north find Ex samples lines Sz S0 L0 _ Hd calls o E k i q Hi Hpl)
      as (latg & lon & Hl & R & -> & _ & _).
    exists latg. split; [exact Hl|]. split; [reflexivity|].
    apply (Rmult_eq_reg_r (IZR (Z.min samples lines))); [|lra]. rewrite R. field. lra.
Qed.
End Constructed.
