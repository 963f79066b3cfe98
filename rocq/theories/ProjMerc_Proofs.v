(** Proofs about the Mercator projection (C50, C83). *)
From Coq Require Import List ZArith Reals Lra Lia Bool.
From Coquelicot Require Import Coquelicot.
From Flocq Require Import Core BinarySingleNaN.
From Verif Require Import Base BaseFacts Flt FltFacts Num Maths_Model Maths_Spec Maths_Proofs Spheroid_Model
  Spheroid_Proofs Proj_Model Proj_Spec Proj_Proofs ProjGrid_Proofs ProjGridR_Proofs.
Import ListNotations.
Open Scope R_scope.

Local Notation mx := isometric_latitude.

Section Forward.
Context (e : R) (He : 0 <= e < 1).

Lemma t_bound x : -1 < e * sin x < 1.
Proof. pose proof (SIN_bound x). split; nra. Qed.

Lemma half_angle x : - (PI / 2) < x < PI / 2 -> 0 < sin (PI / 4 + x / 2) /\ 0 < cos (PI / 4 + x / 2).
Proof. intros H. pose proof PI_RGT_0. split; [apply sin_gt_0; lra|apply cos_gt_0; lra]. Qed.

Lemma tan_half_pos x : - (PI / 2) < x < PI / 2 -> 0 < tan (PI / 4 + x / 2).
Proof. intros H. destruct (half_angle x H). unfold tan. apply Rdiv_lt_0_compat; assumption. Qed.

Lemma quotient_pos x : 0 < (1 - e * sin x) / (1 + e * sin x).
Proof. pose proof (t_bound x). apply Rdiv_lt_0_compat; lra. Qed.

Lemma mx_split x : - (PI / 2) < x < PI / 2 ->
  mx e x = ln (sin (PI / 4 + x / 2)) - ln (cos (PI / 4 + x / 2)) + e / 2 * (ln (1 - e * sin x) - ln (1 + e * sin x)).
Proof.
  intros H. unfold isometric_latitude. rewrite ln_mult; [|apply tan_half_pos; exact H|apply exp_pos].
  unfold Rpower. rewrite ln_exp. pose proof (t_bound x). rewrite ln_div by lra.
  destruct (half_angle x H). unfold tan. rewrite ln_div by assumption. reflexivity.
Qed.

Lemma double_half x : sin (PI / 4 + x / 2) * cos (PI / 4 + x / 2) * 2 = cos x.
Proof. rewrite <- (sin_shift x). replace (PI / 2 - x) with (2 * (PI / 4 - x / 2)) by field. rewrite sin_2a.
  replace (PI / 4 - x / 2) with (PI / 2 - (PI / 4 + x / 2)) by field. rewrite sin_shift, cos_shift. ring. Qed.

Lemma mx_derive x : - (PI / 2) < x < PI / 2 ->
  is_derive (mx e) x ((1 - e ^ 2) / ((1 - (e * sin x) ^ 2) * cos x)).
Proof.
  intros H. destruct (half_angle x H) as [S0 C0]. pose proof (t_bound x) as T. pose proof (cos_gt_0 x ltac:(lra) ltac:(lra)) as Cx.
  apply (is_derive_ext_loc (fun x => ln (sin (PI / 4 + x / 2)) - ln (cos (PI / 4 + x / 2)) + e / 2 * (ln (1 - e * sin x) - ln (1 + e * sin x)))).
  { assert (Hd : 0 < Rmin (x + PI / 2) (PI / 2 - x)) by (apply Rmin_glb_lt; lra).
    exists (mkposreal _ Hd). intros y Hy. symmetry. apply mx_split.
    change (Rabs (minus y x) < Rmin (x + PI / 2) (PI / 2 - x)) in Hy. unfold minus, plus, opp in Hy. cbn in Hy.
    apply Rabs_def2 in Hy. pose proof (Rmin_l (x + PI / 2) (PI / 2 - x)). pose proof (Rmin_r (x + PI / 2) (PI / 2 - x)). lra. }
  auto_derive.
  - repeat split; lra.
  - pose proof (double_half x) as D. fold (x / 2).
    set (s := sin (PI / 4 + x / 2)) in *. set (c := cos (PI / 4 + x / 2)) in *.
    assert (SC : s * s + c * c = 1) by (pose proof (sin2_cos2 (PI / 4 + x / 2)) as E; unfold Rsqr in E; exact E).
    assert (SX : sin x * sin x + cos x * cos x = 1) by (pose proof (sin2_cos2 x) as E; unfold Rsqr in E; exact E).
    assert (T2 : (e * sin x) * (e * sin x) < 1) by nra.
    transitivity (/ cos x - e ^ 2 * cos x / (1 - (e * sin x) ^ 2)).
    + assert (E1 : 1 * / 2 * c * / s + - (1 * / 2 * - s * / c) = / cos x).
      { rewrite <- D. transitivity ((s * s + c * c) / (s * c * 2)); [field; lra|rewrite SC; field; lra]. }
      rewrite E1. field. repeat split; nra.
    + transitivity (((1 - (e * sin x) ^ 2) - e ^ 2 * (cos x * cos x)) / ((1 - (e * sin x) ^ 2) * cos x)); [field; split; [nra|lra]|].
      f_equal. replace (cos x * cos x) with (1 - sin x * sin x) by lra. ring.
Qed.

Lemma mx_odd x : - (PI / 2) < x < PI / 2 -> mx e (- x) = - mx e x.
Proof.
  intros H. rewrite !mx_split by lra. rewrite sin_neg.
  replace (PI / 4 + - x / 2) with (PI / 2 - (PI / 4 + x / 2)) by field. rewrite sin_shift, cos_shift.
  replace (1 - e * - sin x) with (1 + e * sin x) by ring. replace (1 + e * - sin x) with (1 - e * sin x) by ring. ring.
Qed.

Lemma mx_slope_pos x : - (PI / 2) < x < PI / 2 -> 0 < (1 - e ^ 2) / ((1 - (e * sin x) ^ 2) * cos x).
Proof.
  intros H. pose proof (t_bound x) as T. pose proof (cos_gt_0 x ltac:(lra) ltac:(lra)) as Cx.
  apply Rdiv_lt_0_compat; [nra|]. apply Rmult_lt_0_compat; [nra|exact Cx].
Qed.

Lemma mx_increasing x y : - (PI / 2) < x -> x < y -> y < PI / 2 -> mx e x < mx e y.
Proof.
  intros H1 H2 H3.
  apply (incr_function (mx e) (Finite (- (PI / 2))) (Finite (PI / 2)) (fun x => (1 - e ^ 2) / ((1 - (e * sin x) ^ 2) * cos x))); cbn; try assumption.
  - intros z Z1 Z2. apply mx_derive. lra.
  - intros z Z1 Z2. apply mx_slope_pos. lra.
Qed.
End Forward.

(** * The surface *)
Section Surface.
Context (eq pol : R) (Hp : 0 < pol) (Hep : pol <= eq).
Definition Wg (x : R) : R := sqrt ((eq * cos x) ^ 2 + (pol * sin x) ^ 2).

Lemma Wg_arg x : 0 < (eq * cos x) ^ 2 + (pol * sin x) ^ 2.
Proof.
  pose proof (sin2_cos2 x) as E. unfold Rsqr in E. assert (0 < pol * pol) by nra. assert (pol * pol <= eq * eq) by nra.
  assert (0 <= cos x * cos x) by apply Rle_0_sqr. nra.
Qed.
Lemma Wg_pos x : 0 < Wg x. Proof. apply sqrt_lt_R0, Wg_arg. Qed.
Lemma Wg_sq x : Wg x * Wg x = (eq * cos x) ^ 2 + (pol * sin x) ^ 2.
Proof. apply sqrt_sqrt. left. apply Wg_arg. Qed.

Lemma surface_r_derive x : derivable_pt_lim (surface_r eq pol) x (- (eq ^ 2 * pol ^ 2 * sin x / Wg x ^ 3)).
Proof.
  apply is_derive_Reals. unfold surface_r. pose proof (Wg_arg x) as A. pose proof (Wg_pos x) as P. pose proof (Wg_sq x) as S.
  auto_derive.
  - repeat split; try (cbn in A; lra). fold (Wg x). unfold Wg in P. cbn in P. apply Rgt_not_eq. exact P.
  - unfold Wg in P, S |- *. cbn [pow] in *. 
    set (w := sqrt _) in *. clearbody w.
    pose proof (sin2_cos2 x) as E. unfold Rsqr in E. set (s := sin x) in *. set (c := cos x) in *. clearbody s c.
    transitivity (eq * eq * (- s * (w * w) + (eq * eq - pol * pol) * s * (c * c)) / (w * (w * w))); [field; lra|].
    transitivity (eq * eq * (- s * pol * pol) / (w * (w * w))); [f_equal; f_equal; rewrite S|field; lra].
    replace (eq * c * (eq * c * 1)) with (eq * eq * (c * c)) by ring. replace (c * c) with (1 - s * s) by lra. ring.
Qed.

Lemma surface_z_derive x : derivable_pt_lim (surface_z eq pol) x (eq ^ 2 * pol ^ 2 * cos x / Wg x ^ 3).
Proof.
  apply is_derive_Reals. unfold surface_z. pose proof (Wg_arg x) as A. pose proof (Wg_pos x) as P. pose proof (Wg_sq x) as S.
  auto_derive.
  - repeat split; try (cbn in A; lra). fold (Wg x). unfold Wg in P. cbn in P. apply Rgt_not_eq. exact P.
  - unfold Wg in P, S |- *. cbn [pow] in *.
    set (w := sqrt _) in *. clearbody w.
    pose proof (sin2_cos2 x) as E. unfold Rsqr in E. set (s := sin x) in *. set (c := cos x) in *. clearbody s c.
    transitivity (pol * pol * (c * (w * w) + (eq * eq - pol * pol) * c * (s * s)) / (w * (w * w))); [field; lra|].
    transitivity (pol * pol * (c * eq * eq) / (w * (w * w))); [f_equal; f_equal; rewrite S|field; lra].
    replace (eq * c * (eq * c * 1)) with (eq * eq * (c * c)) by ring. replace (c * c) with (1 - s * s) by lra. ring.
Qed.

Lemma meridian_speed_val x : meridian_speed eq pol x (eq ^ 2 * pol ^ 2 / Wg x ^ 3).
Proof.
  eexists _, _. split; [apply surface_r_derive|]. split; [apply surface_z_derive|]. pose proof (Wg_pos x) as P.
  split; [apply Rdiv_lt_0_compat; [apply Rmult_lt_0_compat; apply pow_lt; lra|apply pow_lt; exact P]|].
  pose proof (sin2_cos2 x) as E. unfold Rsqr in E.
  transitivity ((eq ^ 2 * pol ^ 2 / Wg x ^ 3) ^ 2 * (sin x * sin x + cos x * cos x)); [rewrite E; ring|]. field. lra.
Qed.

Lemma ecc_sq : first_eccentricity eq pol ^ 2 = 1 - (pol / eq) ^ 2.
Proof.
  unfold first_eccentricity. rewrite <- Rsqr_pow2. apply Rsqr_sqrt.
  assert (0 < pol / eq <= 1). { split; [apply Rdiv_lt_0_compat; lra|]. apply (Rmult_le_reg_r eq); [lra|]. unfold Rdiv. rewrite Rmult_assoc, Rinv_l by lra. lra. }
  nra.
Qed.
Lemma ecc_range : 0 <= first_eccentricity eq pol < 1.
Proof.
  assert (Q : 0 < pol / eq) by (apply Rdiv_lt_0_compat; lra). pose proof ecc_sq as E.
  assert (0 <= first_eccentricity eq pol) by apply sqrt_pos. split; [assumption|]. nra.
Qed.
Lemma ecc_W x : 1 - (first_eccentricity eq pol * sin x) ^ 2 = Wg x * Wg x / eq ^ 2.
Proof.
  rewrite Wg_sq. rewrite Rpow_mult_distr, ecc_sq. pose proof (sin2_cos2 x) as E. unfold Rsqr in E.
  transitivity ((eq ^ 2 * (sin x * sin x + cos x * cos x) - eq ^ 2 * (1 - (pol / eq) ^ 2) * sin x ^ 2) / eq ^ 2); [rewrite E|]; field; lra.
Qed.

Lemma merc_conformal x : - (PI / 2) < x < PI / 2 ->
  cylindrical_scale eq pol (mx (first_eccentricity eq pol)) x (Wg x / (eq ^ 2 * cos x)).
Proof.
  intros H. pose proof (Wg_pos x) as P. pose proof (cos_gt_0 x ltac:(lra) ltac:(lra)) as Cx.
  exists (eq ^ 2 * pol ^ 2 / Wg x ^ 3), ((1 - first_eccentricity eq pol ^ 2) / ((1 - (first_eccentricity eq pol * sin x) ^ 2) * cos x)).
  split; [apply meridian_speed_val|]. split; [apply is_derive_Reals, mx_derive; [exact ecc_range|exact H]|]. split.
  - rewrite ecc_W, ecc_sq. field. repeat split; lra.
  - unfold surface_r. fold (Wg x). field. repeat split; lra.
Qed.

Lemma merc_distortion x : - (PI / 2) < x < PI / 2 ->
  exists k, cylindrical_scale eq pol (mx (first_eccentricity eq pol)) x k /\ mercator_distortion eq pol x = eq * k.
Proof.
  intros H. pose proof (Wg_pos x) as P. pose proof (cos_gt_0 x ltac:(lra) ltac:(lra)) as Cx.
  exists (Wg x / (eq ^ 2 * cos x)). split; [apply merc_conformal; exact H|].
  unfold mercator_distortion, N. destruct (latitudes eq pol Hp Hep x ltac:(lra)) as (_ & -> & _).
  rewrite <- Rpow_mult_distr, ecc_W. replace (sqrt (Wg x * Wg x / eq ^ 2)) with (Wg x / eq).
  - field. repeat split; lra.
  - symmetry. replace (Wg x * Wg x / eq ^ 2) with ((Wg x / eq) * (Wg x / eq)) by (field; lra).
    apply sqrt_square. left. apply Rdiv_lt_0_compat; lra.
Qed.
End Surface.

(** * Maps *)
Lemma merc_any (A : arith) (L : libm A) prograde e centric find samples lines : map_size samples lines ->
  forall calls o, mercator_plot_map L prograde e centric find samples lines = (calls, o) ->
  in_order calls /\ inside (samples * lines) calls /\
  ((exists n, o = Ok n) -> map snd calls = offsets (samples * lines)).
Proof.
  intros Sz calls o E. unfold mercator_plot_map in E. destruct (loops_spec _ _ _ _ _ Sz E) as (S & R & _ & _).
  split; [exact S|]. split; [exact R|]. intros Ok_. apply (loops_all _ _ _ _ _ Sz E Ok_).
  intros k f i Ef. destruct (find _ _ _ _) as [latg|x|u]; cbn [bind] in Ef; [|discriminate|discriminate].
  apply Ok_inj in Ef. subst f. discriminate.
Qed.

Section MercatorMap.
Context (c low e : R) (prograde : bool) (centric : ar_num -> ar_num)
        (find : ar_num -> ar_num -> ar_num -> (ar_num -> ar_num) -> outcome ar_num).
Context (samples lines : Z) (Sz : map_size samples lines) (S0 : (0 < samples)%Z) (L0 : (0 < lines)%Z).
Local Notation L := (libm_num c low).
Definition merc_ord (k : Z) : R := (2 * IZR k + 1 - IZR lines) / IZR samples * c.
Definition merc_lon (i : Z) : R :=
  if prograde then 2 * c - (2 * IZR i + 1) / IZR samples * c else (2 * IZR i + 1) / IZR samples * c.
Definition merc_find (k : Z) : outcome ar_num :=
  find (Num (merc_ord k)) (Num (- (c / 2))) (Num (c / 2)) (mercator_x L (Num e : ar_num)).

Lemma merc_row k : let x := a_sub ar_num (a_mul ar_num (a_mul ar_num (a_div ar_num (a_add ar_num (a_of_Z ar_num k) half) (a_of_Z ar_num lines)) (a_of_Z ar_num 2))
     (a_mul ar_num (a_div ar_num (a_of_Z ar_num lines) (a_of_Z ar_num samples)) (l_pi L)))
     (a_mul ar_num (a_div ar_num (a_of_Z ar_num lines) (a_of_Z ar_num samples)) (l_pi L)) in
  x = (Num (merc_ord k) : ar_num).
Proof.
  cbv zeta. assert (IZR lines <> 0) by (apply not_0_IZR; lia). assert (IZR samples <> 0) by (apply not_0_IZR; lia).
  rewrite num_half. nums. rewrite !num_divide by assumption. nums. f_equal. unfold merc_ord. field. auto.
Qed.

Lemma merc_point k i f p :
  bind (merc_find k) (fun latg => Ok (fun i => Ok (Some (centric latg, mercator_longitude L prograde i samples)))) = Ok f ->
  f i = Ok (Some p) -> exists latg, merc_find k = Ok latg /\ p = (centric latg, Num (merc_lon i) : ar_num).
Proof.
  intros Ef Fi. destruct (merc_find k) as [latg|x|u]; cbn [bind] in Ef; [|discriminate|discriminate].
  apply Ok_inj in Ef. subst f. apply Ok_inj in Fi. exists latg. split; [reflexivity|].
  assert (IZR samples <> 0) by (apply not_0_IZR; lia).
  assert (Lon : mercator_longitude L prograde i samples = Num (merc_lon i)).
  { unfold mercator_longitude. rewrite num_half. nums. rewrite !num_divide by assumption. unfold merc_lon.
    destruct prograde; nums; f_equal; field; assumption. }
  rewrite Lon in Fi. congruence.
Qed.

Lemma merc_map : exists calls o, mercator_plot_map L prograde (Num e : ar_num) centric find samples lines = (calls, o) /\
  (forall k i p, (0 <= i < samples)%Z -> plotted samples calls k i p ->
     exists latg, merc_find k = Ok latg /\ p = (centric latg, Num (merc_lon i) : ar_num)) /\
  ((exists n, o = Ok n) -> forall k i, (0 <= k < lines)%Z -> (0 <= i < samples)%Z ->
     exists latg, merc_find k = Ok latg /\ plotted samples calls k i (centric latg, Num (merc_lon i) : ar_num)) /\
  ((forall k, (0 <= k < lines)%Z -> exists latg, merc_find k = Ok latg) -> exists n, o = Ok n).
Proof.
  destruct (mercator_plot_map L prograde (Num e : ar_num) centric find samples lines) as [calls o] eqn:E.
  exists calls, o. split; [reflexivity|]. unfold mercator_plot_map in E.
  match type of E with plot_loops _ _ ?r = _ => set (row := r) in E end.
  assert (Row : forall k, row k = bind (merc_find k) (fun latg => Ok (fun i => Ok (Some (centric latg, mercator_longitude L prograde i samples))))).
  { intros k. unfold row. pose proof (merc_row k) as Hx. cbv zeta in Hx. rewrite Hx. unfold merc_find, neg.
    nums. replace (0 - c / 2) with (- (c / 2)) by ring. reflexivity. }
  destruct (loops_spec _ _ _ _ _ Sz E) as (_ & _ & V & D). split; [|split].
  - intros k i p Hi Hp. destruct (V k i p Hi Hp) as (f & Rk & Fi). rewrite Row in Rk. exact (merc_point k i f p Rk Fi).
  - intros (n & En) k i Hk Hi. destruct (D n En k i Hk Hi) as (f & q & Rk & Fi & Hq). rewrite Row in Rk.
    destruct q as [p|].
    + destruct (merc_point k i f p Rk Fi) as (latg & El & ->). exists latg. split; [exact El|]. apply Hq. reflexivity.
    + exfalso. destruct (merc_find k); cbn [bind] in Rk; [|discriminate|discriminate]. apply Ok_inj in Rk. subst f. discriminate.
  - intros Total. 
    assert (T : forall n k off, (0 <= k)%Z -> (k + Z.of_nat n <= lines)%Z -> exists cs n', plot_rows n samples row k off = (cs, Ok n')).
    { induction n as [|n IH]; intros k off H0 H1; [eexists _, _; reflexivity|]. cbn [plot_rows]. rewrite Row.
      destruct (Total k ltac:(lia)) as [latg ->]. cbn [bind].
      destruct (row_total (Z.to_nat samples) (fun i => Ok (Some (centric latg, mercator_longitude L prograde i samples))) ltac:(intros; eexists; reflexivity) 0%Z off) as (r & o' & ->).
      destruct (IH (k + 1)%Z o' ltac:(lia) ltac:(lia)) as (rs & o'' & ->). eexists _, _; reflexivity. }
    unfold plot_loops in E. destruct (T (Z.to_nat lines) 0%Z 0%Z) as (cs & n' & E'); [lia|lia|]. rewrite E' in E.
    exists n'. congruence.
Qed.
End MercatorMap.

Lemma mercator_x_num low e x : 0 <= e < 1 -> - (PI / 2) < x < PI / 2 ->
  mercator_x (libm_num PI low) (Num e : ar_num) (Num x : ar_num) = Num (mx e x).
Proof.
  intros He H. unfold mercator_x. nums. destruct (half_angle x H) as [Hs Hc].
  pose proof (t_bound e He x) as T. rewrite !num_divide by lra. nums.
  rewrite Req_bool_false by lra. rewrite (Req_bool_false (e / 2)) by lra.
  rewrite Rlt_bool_true by (apply quotient_pos; exact He). nums.
  rewrite Rlt_bool_true; [reflexivity|]. apply Rmult_lt_0_compat; [apply tan_half_pos; exact H|apply exp_pos].
Qed.

Lemma merc_exact low eq pol prograde find samples lines : 0 < pol -> pol <= eq ->
  map_size samples lines -> (0 < samples)%Z -> (0 < lines)%Z -> exact_finder find -> low < - (IZR lines / IZR samples * PI) ->
  forall calls o, mercator_plot_map (libm_num PI low) prograde (Num (first_eccentricity eq pol) : ar_num)
    (num_centric eq pol) find samples lines = (calls, o) ->
  forall k i p, (0 <= i < samples)%Z -> plotted samples calls k i p ->
    exists latg, - (PI / 2) < latg < PI / 2 /\
      mx (first_eccentricity eq pol) latg = (IZR k + 1 / 2 - IZR lines / 2) * (2 * PI / IZR samples) /\
      p = (Num (centric_latitude eq pol latg) : ar_num,
           Num (if prograde then 2 * PI - (IZR i + 1 / 2) * (2 * PI / IZR samples)
                else (IZR i + 1 / 2) * (2 * PI / IZR samples)) : ar_num).
Proof.
  intros Hp Hep Sz S0 L0 Ex Hlow calls o E k i p Hi Hpl.
  destruct (merc_map PI low (first_eccentricity eq pol) prograde (num_centric eq pol) find samples lines Sz S0 L0) as (calls' & o' & E' & V & _).
  rewrite E in E'. injection E' as <- <-. destruct (V k i p Hi Hpl) as (r & F & ->).
  destruct (Ex _ _ _ _ _ F) as (x & -> & Hx' & Fx). exists x.
  assert (Hx : - (PI / 2) < x < PI / 2).
  { destruct (Req_dec x (PI / 2)) as [->|N1].
    { exfalso. unfold mercator_x in Fx. revert Fx. nums. rewrite (num_divide (PI / 2) 2) by lra. nums.
      replace (PI / 4 + PI / 2 / 2) with (PI / 2) by field. rewrite cos_PI2, Req_bool_true by reflexivity. discriminate. }
    destruct (Req_dec x (- (PI / 2))) as [->|N2]; [|lra]. exfalso. revert Fx. unfold mercator_x. nums.
    pose proof (t_bound _ (ecc_range eq pol Hp Hep) (- (PI / 2))) as T.
    rewrite !num_divide by lra. nums. replace (PI / 4 + - (PI / 2) / 2) with 0 by field. rewrite cos_0, Req_bool_false by lra.
    pose proof (ecc_range eq pol Hp Hep) as He. rewrite (Req_bool_false (_ / 2)) by lra.
    rewrite Rlt_bool_true by (apply quotient_pos; exact He). nums. rewrite tan_0, Rmult_0_l.
    rewrite Rlt_bool_false by lra. rewrite Req_bool_true by reflexivity. intros [= Fx].
    assert (SP : 0 < IZR samples) by (apply IZR_lt; lia). assert (K0 : 0 <= IZR k).
    { apply IZR_le. destruct (merc_any ar_num _ _ _ _ _ _ _ Sz _ _ E) as (_ & In_ & _). specialize (In_ _ _ Hpl). nia. }
    assert (0 <= (2 * IZR k + 1) / IZR samples * PI) by (apply Rmult_le_pos; [apply Rle_mult_inv_pos; lra|pose proof PI_RGT_0; lra]).
    unfold merc_ord in Fx. assert ((2 * IZR k + 1 - IZR lines) / IZR samples * PI = (2 * IZR k + 1) / IZR samples * PI - IZR lines / IZR samples * PI) by (field; lra). lra. }
  split; [exact Hx|].
  rewrite mercator_x_num in Fx by (try exact Hx; apply ecc_range; assumption). injection Fx as Fx.
  assert (IZR samples <> 0) by (apply not_0_IZR; lia). split.
  - rewrite Fx. unfold merc_ord. field. assumption.
  - unfold num_centric, num1. f_equal. f_equal. unfold merc_lon. destruct prograde; field; assumption.
Qed.

(** Lines equally far from the equator get opposite latitudes. *)
Lemma merc_symmetric low eq pol prograde find samples lines : 0 < pol -> pol <= eq ->
  map_size samples lines -> (0 < samples)%Z -> (0 < lines)%Z -> exact_finder find -> low < - (IZR lines / IZR samples * PI) ->
  forall calls o, mercator_plot_map (libm_num PI low) prograde (Num (first_eccentricity eq pol) : ar_num)
    (num_centric eq pol) find samples lines = (calls, o) ->
  forall k i j lat lon lat' lon', (0 <= i < samples)%Z -> (0 <= j < samples)%Z ->
    plotted samples calls k i (Num lat : ar_num, lon) -> plotted samples calls (lines - 1 - k) j (Num lat' : ar_num, lon') ->
    lat' = - lat.
Proof.
  intros Hp Hep Sz S0 L0 Ex Hlow calls o E k i j lat lon lat' lon' Hi Hj P1 P2.
  destruct (merc_exact _ _ _ _ _ _ _ Hp Hep Sz S0 L0 Ex Hlow _ _ E _ _ _ Hi P1) as (x & Hx & Mx & E1).
  destruct (merc_exact _ _ _ _ _ _ _ Hp Hep Sz S0 L0 Ex Hlow _ _ E _ _ _ Hj P2) as (x' & Hx' & Mx' & E2).
  pose proof (ecc_range eq pol Hp Hep) as He.
  assert (x' = - x).
  { assert (M : mx (first_eccentricity eq pol) x' = mx (first_eccentricity eq pol) (- x)).
    { rewrite mx_odd by assumption. rewrite Mx, Mx'. rewrite !minus_IZR. field. apply not_0_IZR. lia. }
    destruct (Rtotal_order x' (- x)) as [H|[H|H]]; [|exact H|].
    - pose proof (mx_increasing _ He x' (- x) ltac:(lra) H ltac:(lra)). lra.
    - pose proof (mx_increasing _ He (- x) x' ltac:(lra) H ltac:(lra)). lra. }
  subst x'. injection E1 as -> _. injection E2 as -> _.
  destruct (latitudes eq pol Hp Hep x ltac:(lra)) as (_ & _ & H & _). exact H.
Qed.

(** * Grid *)
Lemma merc_grid_content low eq pol prograde samples lines iv jv : 0 < pol -> pol <= eq ->
  map_size samples lines -> (0 < samples)%Z -> (0 < lines)%Z -> 0 < iv -> 0 < jv ->
  exists g n0, (forall fuel, (n0 <= fuel)%nat ->
    make_grid samples lines (mercator_plot_grid (libm_num PI low) prograde (Num (first_eccentricity eq pol) : ar_num)
      (num_graphic eq pol) fuel samples lines (Num iv : ar_num) (Num jv : ar_num)) = Some (Ok g)) /\
    black_or_white (samples * lines) g /\
    forall k i, (0 <= k < lines)%Z -> (0 <= i < samples)%Z ->
      (white_at samples g k i <->
       (exists n, grid_latitude iv n /\
          nearest (mx (first_eccentricity eq pol) (graphic_latitude eq pol (n * (PI / 180))) / (2 * PI / IZR samples) + IZR lines / 2) k) \/
       (exists m r, grid_longitude jv m /\ nearest (m / 360 * IZR samples) r /\ i = (if prograde then samples - r else r)%Z)).
Proof.
  intros Hp Hep Sz S0 L0 Hiv Hjv. pose proof PI_RGT_0 as Ppi.
  assert (NS : IZR samples <> 0) by (apply not_0_IZR; lia). assert (NL : IZR lines <> 0) by (apply not_0_IZR; lia).
  destruct (cylindrical_content PI low samples lines Sz prograde iv jv
    (fun n => a_add ar_num (a_div ar_num (mercator_x (libm_num PI low) (Num (first_eccentricity eq pol) : ar_num)
        (num_graphic eq pol (a_mul ar_num n (l_degree (libm_num PI low)))))
        (a_mul ar_num (a_div ar_num (a_mul ar_num (a_div ar_num (a_of_Z ar_num lines) (a_of_Z ar_num samples)) (l_pi (libm_num PI low))) (a_of_Z ar_num lines)) (a_of_Z ar_num 2)))
        (a_div ar_num (a_of_Z ar_num lines) (a_of_Z ar_num 2)))
    (fun m => a_div ar_num (a_mul ar_num m (a_of_Z ar_num samples)) (a_of_Z ar_num 360))
    (fun n => mx (first_eccentricity eq pol) (graphic_latitude eq pol (n * (PI / 180))) / (2 * PI / IZR samples) + IZR lines / 2)
    (fun m => m / 360 * IZR samples) Hiv Hjv) as (g & n0 & E & B & C).
  - intros n (j & Hj & En & H90).
    assert (Hn : -90 < n < 90).
    { split; [|exact H90]. rewrite En. assert (0 < IZR j * iv); [|lra]. apply Rmult_lt_0_compat; [apply IZR_lt; lia|lra]. }
    assert (Hr : - (PI / 2) < n * (PI / 180) < PI / 2) by (split; nra).
    assert (Hg : - (PI / 2) < graphic_latitude eq pol (n * (PI / 180)) < PI / 2).
    { unfold graphic_latitude, atan_ktan. rewrite Req_bool_false by (apply Rgt_not_eq, cos_gt_0; lra). match goal with |- _ < atan ?a < _ => pose proof (atan_bound a); lra end. }
    nums. unfold num_graphic. cbn [num1]. rewrite mercator_x_num by (try exact Hg; apply ecc_range; assumption).
    nums. rewrite (num_divide (IZR lines) (IZR samples)) by assumption. nums. rewrite (num_divide _ (IZR lines)) by assumption. nums.
    rewrite (num_divide (IZR lines) 2) by lra. rewrite num_divide.
    + nums. f_equal. field. repeat split; try assumption; lra.
    + replace (IZR lines / IZR samples * PI / IZR lines * 2) with (2 * PI / IZR samples) by (field; auto).
      apply Rgt_not_eq. apply Rdiv_lt_0_compat; [lra|]. apply IZR_lt. lia.
  - intros m (j & Hj & En & Hm). nums. rewrite num_divide by lra.
    assert (m <= 360). { rewrite En. assert (0 <= IZR j * jv); [|lra]. apply Rmult_le_pos; [apply IZR_le; lia|lra]. }
    assert (P0 : 0 < IZR samples) by (apply IZR_lt; lia).
    assert (P1 : IZR samples <= 2 ^ 64 - 1).
    { replace (2 ^ 64 - 1) with (IZR (2 ^ 64 - 1)) by (rewrite minus_IZR, (pow_IZR 2 64); reflexivity). apply IZR_le. destruct Sz. lia. }
    split; [f_equal; field|]. split; [apply Rlt_trans with 0; [lra|]; apply Rmult_lt_0_compat; lra|].
    apply Rle_lt_trans with (1 * IZR samples); [|lra]. apply Rmult_le_compat_r; lra.
  - exists g, n0. split; [|split; [exact B|exact C]]. intros fuel Hf. rewrite <- (E fuel Hf). reflexivity.
Qed.
