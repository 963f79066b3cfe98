(** Lemmas for C35-C40. *)
From Coq Require Import List ZArith Reals Lra Lia Bool.
From Flocq Require Import Core BinarySingleNaN.
From Verif Require Import Base Flt FltFacts Num LinAlg_Model Maths_Model Maths_Spec Maths_Proofs LinAlg_Proofs
  Spheroid_Model Spheroid_Spec.
Import ListNotations.
Open Scope R_scope.

(** ** Construction *)

Lemma spheroid_new_num pro (e p : num) :
  spheroid_new (A := ar_num) pro e p =
  match e, p with
  | Num a, Num c => if Rlt_bool 0 c && Rle_bool c a then Ok (Spheroid pro (Num a : ar_num) (Num c : ar_num)) else Throw invalid_argument
  | _, _ => Throw invalid_argument
  end.
Proof.
  unfold spheroid_new, validate_radius. destruct e as [|a]; [reflexivity|].
  cbn [a_isnan a_lt a_of_Z ar_num num_isnan num_lt orb].
  destruct p as [|c].
  - destruct (Rlt_bool_spec 0 a); reflexivity.
  - cbn [a_isnan a_lt a_of_Z ar_num num_isnan num_lt orb].
    destruct (Rlt_bool_spec 0 a), (Rlt_bool_spec 0 c), (Rle_bool_spec c a); cbn [negb bind andb num_isnan orb];
      try reflexivity; try (exfalso; lra).
    + rewrite Rlt_bool_false by lra. reflexivity.
    + rewrite Rlt_bool_true by lra. reflexivity.
Qed.

Lemma spheroid_new_double pro (e p : double) :
  spheroid_new (A := ar_double) pro e p =
  if negb (is_nan e) && negb (is_nan p) && Rlt_bool 0 (fval p) && Rle_bool (fval p) (fval e)
  then Ok (Spheroid pro (e : ar_double) (p : ar_double)) else Throw invalid_argument.
Proof.
  unfold spheroid_new, validate_radius. cbn [a_isnan a_lt a_of_Z ar_double].
  destruct (double_of_Z_exact 0) as [F0 E0]; [lia|].
  destruct (is_nan e) eqn:Ne; cbn [negb andb orb]; [reflexivity|].
  rewrite (flt_spec _ e) by (auto; now apply finite_not_nan). rewrite (fval_finite _ F0), E0.
  destruct (is_nan p) eqn:Np; cbn [negb andb orb bind].
  { destruct (Rlt_bool_spec 0 (fval e)); reflexivity. }
  rewrite (flt_spec _ p) by (auto; now apply finite_not_nan). rewrite (fval_finite _ F0), E0.
  rewrite (flt_spec e p) by assumption.
  destruct (Rlt_bool_spec 0 (fval e)), (Rlt_bool_spec 0 (fval p)), (Rle_bool_spec (fval p) (fval e)); cbn [negb bind andb];
      try reflexivity; try (exfalso; lra).
  - now rewrite Rlt_bool_false by lra.
  - now rewrite Rlt_bool_true by lra.
Qed.

(** ** atan (k tan lat) *)

Lemma sub_self x : x - x = 0.
Proof. ring. Qed.

Lemma trig2 a : cos a * cos a = 1 - sin a * sin a.
Proof. pose proof (trig1 a). lra. Qed.

Lemma cos_zero_pole lat : - (PI / 2) <= lat <= PI / 2 -> cos lat = 0 -> lat = PI / 2 \/ lat = - (PI / 2).
Proof.
  intros H E. destruct (Req_dec lat (PI / 2)); auto. destruct (Req_dec lat (- (PI / 2))); auto.
  pose proof (cos_gt_0 lat). lra.
Qed.

Lemma ktan_sincos k lat : 0 < k -> - (PI / 2) <= lat <= PI / 2 ->
  let h := sqrt (cos lat * cos lat + k * k * (sin lat * sin lat)) in
  0 < h /\ cos (atan_ktan k lat) = cos lat / h /\ sin (atan_ktan k lat) = k * sin lat / h.
Proof.
  intros Hk Hl. cbv zeta. unfold atan_ktan.
  destruct (Req_bool_spec (cos lat) 0) as [E|E].
  - assert (S2 : sin lat * sin lat = 1) by (pose proof (trig1 lat); rewrite E in *; lra).
    rewrite E. replace (0 * 0 + k * k * (sin lat * sin lat)) with (k * k) by (rewrite S2; ring).
    rewrite sqrt_square by lra. split; [exact Hk|].
    destruct (cos_zero_pole lat Hl E) as [->| ->].
    + rewrite sin_PI2. rewrite Rlt_bool_true by lra. rewrite cos_PI2, sin_PI2. split; field; lra.
    + rewrite sin_neg, sin_PI2. rewrite Rlt_bool_false by lra. rewrite cos_neg, sin_neg, cos_PI2, sin_PI2. split; field; lra.
  - assert (C : 0 < cos lat) by (pose proof (cos_ge_0 lat); lra).
    set (D := cos lat * cos lat + k * k * (sin lat * sin lat)).
    assert (HD : 0 < D).
    { unfold D. assert (0 < cos lat * cos lat) by nra. assert (0 <= k * k * (sin lat * sin lat)) by (apply Rmult_le_pos; nra). lra. }
    assert (Hh : 0 < sqrt D) by (now apply sqrt_lt_R0).
    split; [exact Hh|].
    assert (Q : 1 + Rsqr (k * tan lat) = D / (cos lat * cos lat)).
    { unfold Rsqr, tan, D. field. lra. }
    rewrite cos_atan, sin_atan, Q.
    rewrite sqrt_div by (try lra; nra). rewrite sqrt_square by lra. unfold tan.
    split; field; split; lra.
Qed.

Section WithRadii.
Variables eq pol : R.
Hypothesis Hpol : 0 < pol.
Hypothesis Hle : pol <= eq.

Let Heq : 0 < eq. Proof. lra. Qed.
Let K := (eq / pol) ^ 2.

Lemma K_pos : 1 <= K.
Proof.
  unfold K. assert (1 <= eq / pol).
  { apply Rmult_le_reg_r with pol; auto. unfold Rdiv. rewrite Rmult_assoc, Rinv_l by lra. lra. }
  nra.
Qed.

Lemma K_inv : (pol / eq) ^ 2 = / K.
Proof. unfold K. field. split; lra. Qed.

(** *** C36 *)

Lemma open_ktan k lat : - (PI / 2) < lat < PI / 2 -> atan_ktan k lat = atan (k * tan lat).
Proof.
  intros H. unfold atan_ktan. rewrite Req_bool_false; [reflexivity|].
  pose proof (cos_gt_0 lat). lra.
Qed.

Lemma ktan_pole k : atan_ktan k (PI / 2) = PI / 2 /\ atan_ktan k (- (PI / 2)) = - (PI / 2).
Proof.
  unfold atan_ktan. rewrite cos_neg, sin_neg, cos_PI2, sin_PI2. rewrite Req_bool_true by reflexivity.
  rewrite Rlt_bool_true, Rlt_bool_false by lra. auto.
Qed.

Lemma ktan_bound k lat : - (PI / 2) <= lat <= PI / 2 -> - (PI / 2) <= atan_ktan k lat <= PI / 2.
Proof.
  intros H. unfold atan_ktan. pose proof PI_RGT_0.
  destruct (Req_bool_spec (cos lat) 0); [destruct (Rlt_bool_spec 0 (sin lat)); lra|].
  pose proof (atan_bound (k * tan lat)). lra.
Qed.

Lemma ktan_inverse k k' lat : k * k' = 1 -> - (PI / 2) <= lat <= PI / 2 -> atan_ktan k (atan_ktan k' lat) = lat.
Proof.
  intros E H.
  destruct (Req_dec lat (PI / 2)) as [->|N1]; [now rewrite !(proj1 (ktan_pole _))|].
  destruct (Req_dec lat (- (PI / 2))) as [->|N2]; [now rewrite !(proj2 (ktan_pole _))|].
  rewrite (open_ktan k' lat) by lra.
  rewrite open_ktan by (pose proof (atan_bound (k' * tan lat)); lra).
  rewrite tan_atan, <- Rmult_assoc, E, Rmult_1_l. apply atan_tan. lra.
Qed.

Lemma ktan_odd k lat : - (PI / 2) <= lat <= PI / 2 -> atan_ktan k (- lat) = - atan_ktan k lat.
Proof.
  intros H.
  destruct (Req_dec lat (PI / 2)) as [->|N1]; [now rewrite (proj1 (ktan_pole _)), (proj2 (ktan_pole _))|].
  destruct (Req_dec lat (- (PI / 2))) as [->|N2].
  { rewrite Ropp_involutive, (proj1 (ktan_pole _)), (proj2 (ktan_pole _)). ring. }
  rewrite !open_ktan by lra. rewrite tan_neg, <- atan_opp. f_equal. ring.
Qed.

Lemma ktan_increasing k x y : 0 < k -> - (PI / 2) <= x -> x < y -> y <= PI / 2 -> atan_ktan k x < atan_ktan k y.
Proof.
  intros Hk H1 H2 H3. pose proof PI_RGT_0.
  destruct (Req_dec y (PI / 2)) as [->|N1].
  - rewrite (proj1 (ktan_pole _)). destruct (Req_dec x (- (PI / 2))) as [->|N2].
    + rewrite (proj2 (ktan_pole _)). lra.
    + rewrite open_ktan by lra. pose proof (atan_bound (k * tan x)). lra.
  - destruct (Req_dec x (- (PI / 2))) as [->|N2].
    + rewrite (proj2 (ktan_pole _)), open_ktan by lra. pose proof (atan_bound (k * tan y)). lra.
    + rewrite !open_ktan by lra. apply atan_increasing. apply Rmult_lt_compat_l; auto.
      apply tan_increasing; lra.
Qed.

Lemma tan_nonneg x : 0 <= x -> x < PI / 2 -> 0 <= tan x.
Proof.
  intros H1 H2. unfold tan. pose proof PI_RGT_0. apply Rmult_le_pos.
  - apply sin_ge_0; lra.
  - left. apply Rinv_0_lt_compat. apply cos_gt_0; lra.
Qed.

Lemma ktan_ge k x : 1 <= k -> 0 <= x <= PI / 2 -> x <= atan_ktan k x.
Proof.
  intros Hk H. pose proof PI_RGT_0. destruct (Req_dec x (PI / 2)) as [->|N]; [rewrite (proj1 (ktan_pole _)); lra|].
  rewrite open_ktan by lra. rewrite <- (atan_tan x) at 1 by lra.
  pose proof (tan_nonneg x). destruct (Req_dec (tan x) (k * tan x)) as [<-|]; [lra|].
  left. apply atan_increasing. nra.
Qed.

Lemma ktan_le k x : 0 < k <= 1 -> 0 <= x <= PI / 2 -> 0 <= atan_ktan k x <= x.
Proof.
  intros Hk H. pose proof PI_RGT_0. destruct (Req_dec x (PI / 2)) as [->|N]; [rewrite (proj1 (ktan_pole _)); lra|].
  rewrite open_ktan by lra. rewrite <- (atan_tan x) at 3 by lra.
  pose proof (tan_nonneg x). split.
  - destruct (Req_dec (k * tan x) 0) as [->|]; [rewrite atan_0; lra|].
    left. rewrite <- atan_0. apply atan_increasing. assert (0 <= k * tan x) by (apply Rmult_le_pos; lra). lra.
  - destruct (Req_dec (k * tan x) (tan x)) as [->|]; [lra|]. left. apply atan_increasing. nra.
Qed.

Lemma k_centric : 0 < (pol / eq) ^ 2 <= 1.
Proof.
  rewrite K_inv. pose proof K_pos. split; [apply Rinv_0_lt_compat; lra|].
  rewrite <- Rinv_1. apply Rinv_le_contravar; lra.
Qed.

Lemma latitudes x : - (PI / 2) <= x <= PI / 2 ->
  centric_latitude eq pol (graphic_latitude eq pol x) = x /\
  graphic_latitude eq pol (centric_latitude eq pol x) = x /\
  centric_latitude eq pol (- x) = - centric_latitude eq pol x /\
  graphic_latitude eq pol (- x) = - graphic_latitude eq pol x /\
  (0 <= x -> 0 <= centric_latitude eq pol x /\ centric_latitude eq pol x <= x /\ x <= graphic_latitude eq pol x).
Proof.
  intros H. unfold centric_latitude, graphic_latitude. pose proof K_pos.
  repeat split.
  - apply ktan_inverse; auto. field. lra.
  - apply ktan_inverse; auto. field. lra.
  - now apply ktan_odd.
  - now apply ktan_odd.
  - apply ktan_le; [apply k_centric|lra].
  - apply ktan_le; [apply k_centric|lra].
  - apply ktan_ge; [exact K_pos|lra].
Qed.

Lemma latitudes_increasing x y : - (PI / 2) <= x -> x < y -> y <= PI / 2 ->
  centric_latitude eq pol x < centric_latitude eq pol y /\ graphic_latitude eq pol x < graphic_latitude eq pol y.
Proof.
  intros. pose proof K_pos. split; apply ktan_increasing; auto; [apply k_centric|change (0 < K); lra].
Qed.

(** *** C37 *)

Let W lat := cos lat * cos lat + K * (sin lat * sin lat).

Lemma W_pos lat : 1 <= W lat.
Proof. unfold W. rewrite trig2. pose proof K_pos. assert (0 <= sin lat * sin lat) by nra. nra. Qed.

Lemma radius_W lat : centric_radius eq pol lat = eq / sqrt (W lat).
Proof.
  unfold centric_radius, hypot. pose proof (W_pos lat).
  replace (cos lat / eq * (cos lat / eq) + sin lat / pol * (sin lat / pol)) with (W lat / (eq * eq)).
  2:{ unfold W, K. field. split; lra. }
  rewrite sqrt_div by nra. rewrite sqrt_square by lra. field. split; [|lra].
  apply Rgt_not_eq, sqrt_lt_R0. lra.
Qed.

Lemma radius_pos lat : 0 < centric_radius eq pol lat.
Proof.
  rewrite radius_W. apply Rdiv_lt_0_compat; auto. apply sqrt_lt_R0. pose proof (W_pos lat). lra.
Qed.

Lemma radius_sq lat : centric_radius eq pol lat * centric_radius eq pol lat * W lat = eq * eq.
Proof.
  rewrite radius_W. pose proof (W_pos lat). assert (0 < sqrt (W lat)) by (apply sqrt_lt_R0; lra).
  replace (W lat) with (sqrt (W lat) * sqrt (W lat)) at 3 by (apply sqrt_sqrt; lra). field. lra.
Qed.

Lemma radius_on lat lon : on_spheroid eq pol (spherical (centric_radius eq pol lat) lat lon).
Proof.
  unfold on_spheroid, spherical, vget. cbn [nth].
  set (r := centric_radius eq pol lat). pose proof (radius_sq lat) as E. fold r in E.
  transitivity (r * r * W lat / (eq * eq)).
  - unfold W, K. pose proof (trig2 lon) as T.
    replace ((r * cos lat * cos lon) ^ 2 + (r * cos lat * sin lon) ^ 2) with (r * r * (cos lat * cos lat)).
    + field. split; lra.
    + transitivity (r * r * (cos lat * cos lat) * (cos lon * cos lon + sin lon * sin lon)); [rewrite T|]; ring.
  - rewrite E. field. lra.
Qed.

Lemma radius_unique r lat lon : 0 < r -> on_spheroid eq pol (spherical r lat lon) -> r = centric_radius eq pol lat.
Proof.
  intros Hr H. assert (E : r * r * W lat = eq * eq).
  { unfold on_spheroid, spherical, vget in H. cbn [nth] in H. pose proof (trig2 lon) as T.
    replace ((r * cos lat * cos lon) ^ 2 + (r * cos lat * sin lon) ^ 2) with (r * r * (cos lat * cos lat)) in H.
    2:{ transitivity (r * r * (cos lat * cos lat) * (cos lon * cos lon + sin lon * sin lon)); [rewrite T|]; ring. }
    rewrite <- (Rmult_1_r (eq * eq)), <- H. unfold W, K. field. split; lra. }
  pose proof (radius_sq lat) as E'. pose proof (radius_pos lat) as P. pose proof (W_pos lat).
  assert (Q : (r - centric_radius eq pol lat) * (r + centric_radius eq pol lat) * W lat = 0) by nra.
  apply Rmult_integral in Q as [Q|Q]; [|lra]. apply Rmult_integral in Q as [Q|Q]; lra.
Qed.

Lemma radius_between lat : pol <= centric_radius eq pol lat <= eq.
Proof.
  pose proof (radius_sq lat) as E. pose proof (radius_pos lat) as P. pose proof (W_pos lat) as HW.
  set (r := centric_radius eq pol lat) in *.
  assert (WK : W lat <= K).
  { unfold W. rewrite trig2. pose proof K_pos. pose proof (trig1 lat). assert (0 <= cos lat * cos lat) by nra. nra. }
  assert (KE : pol * pol * K = eq * eq) by (unfold K; field; lra).
  split.
  - destruct (Rle_lt_dec pol r); auto. exfalso. assert (r * r < pol * pol) by nra.
    assert (r * r * W lat < pol * pol * K) by (apply Rle_lt_trans with (r * r * K); [apply Rmult_le_compat_l; nra|apply Rmult_lt_compat_r; lra]).
    lra.
  - destruct (Rle_lt_dec r eq); auto. exfalso. assert (eq * eq < r * r) by nra.
    assert (r * r * 1 <= r * r * W lat) by (apply Rmult_le_compat_l; nra). lra.
Qed.

Lemma radius_ends : centric_radius eq pol 0 = eq /\ centric_radius eq pol (PI / 2) = pol /\
  centric_radius eq pol (- (PI / 2)) = pol.
Proof.
  rewrite !radius_W. unfold W. rewrite cos_0, sin_0, sin_neg, cos_neg, sin_PI2, cos_PI2.
  replace (1 * 1 + K * (0 * 0)) with 1 by ring.
  replace (0 * 0 + K * (1 * 1)) with ((eq / pol) * (eq / pol)) by (unfold K; field; lra).
  replace (0 * 0 + K * (-(1) * -(1))) with ((eq / pol) * (eq / pol)) by (unfold K; field; lra).
  rewrite sqrt_1, sqrt_square by (left; apply Rdiv_lt_0_compat; lra). repeat split; field; lra.
Qed.

(** *** C38 *)

Lemma norm3_spherical r lat lon : 0 <= r -> norm3 (spherical r lat lon) = r.
Proof.
  intros H. unfold norm3. rewrite <- (sqrt_square r H) at 3. f_equal.
  unfold inner, spherical, vget. cbn [sum_to nth].
  transitivity (r * r * (cos lat * cos lat * (cos lon * cos lon + sin lon * sin lon) + sin lat * sin lat)); [ring|].
  rewrite (trig2 lon). replace (1 - sin lon * sin lon + sin lon * sin lon) with 1 by ring. rewrite trig2. ring.
Qed.

Lemma gradient_normal r lat lon : - (PI / 2) <= lat <= PI / 2 ->
  exists t, 0 < t /\ gradient eq pol (spherical r lat lon) = vscale (spherical 1 (graphic_latitude eq pol lat) lon) (r * t).
Proof.
  intros H. pose proof K_pos. destruct (ktan_sincos K lat) as (Hh & C & S); [lra|exact H|].
  set (h := sqrt _) in *. exists (h / (eq * eq)). split; [apply Rdiv_lt_0_compat; nra|].
  unfold gradient, spherical, vscale, graphic_latitude, vget. cbn [nth map]. fold K. rewrite C, S.
  elements.
  - field. split; lra.
  - field. split; lra.
  - transitivity (r * sin lat * K / (eq * eq)); [unfold K; field; split; lra|field; split; lra].
Qed.

Lemma inner_vscale u v k : inner 3 (vscale u k) v = k * inner 3 u v.
Proof. unfold inner. cbn [sum_to]. rewrite !vscale_get. ring. Qed.
Lemma inner_vscale_r u v k : inner 3 u (vscale v k) = k * inner 3 u v.
Proof. unfold inner. cbn [sum_to]. rewrite !vscale_get. ring. Qed.
Lemma inner_pos v : 0 <= inner 3 v v.
Proof. unfold inner. cbn [sum_to]. nra. Qed.

Lemma norm3_vscale v k : 0 <= k -> norm3 (vscale v k) = k * norm3 v.
Proof.
  intros H. unfold norm3. rewrite inner_vscale, inner_vscale_r, <- Rmult_assoc.
  rewrite sqrt_mult by (try apply inner_pos; nra). now rewrite sqrt_square.
Qed.

(** The cosine with respect to a positive multiple of a unit vector. *)
Lemma angle_unit u v k : 0 < k -> norm3 u = 1 -> angle_cosine (vscale u k) v = inner 3 u v / norm3 v.
Proof.
  intros Hk Hu. unfold angle_cosine. rewrite inner_vscale, norm3_vscale, Hu by lra.
  destruct (Req_dec (norm3 v) 0) as [E|E].
  - assert (V : inner 3 v v = 0) by (apply sqrt_eq_0; [apply inner_pos|exact E]).
    assert (Z : inner 3 u v = 0).
    { unfold inner in *. cbn [sum_to] in *.
      assert (Z0 : vget v 0 = 0) by nra. assert (Z1 : vget v 1 = 0) by nra. assert (Z2 : vget v 2 = 0) by nra.
      rewrite Z0, Z1, Z2. ring. }
    rewrite Z. unfold Rdiv. ring.
  - field. split; lra.
Qed.

Lemma inner_sub u p q : inner 3 u (minus3 p q) = inner 3 u p - inner 3 u q.
Proof. unfold inner, minus3, vget. cbn [sum_to nth]. ring. Qed.

Lemma inner_spherical a b c d r s :
  inner 3 (spherical r a b) (spherical s c d) = r * s * (sin a * sin c + cos a * cos c * cos (b - d)).
Proof. rewrite cos_minus. unfold inner, spherical, vget. cbn [sum_to nth]. ring. Qed.

Lemma distance_sq r s a b c d :
  inner 3 (minus3 (spherical r a b) (spherical s c d)) (minus3 (spherical r a b) (spherical s c d)) =
  r * r + s * s - 2 * r * s * (sin a * sin c + cos a * cos c * cos (b - d)).
Proof.
  transitivity (inner 3 (spherical r a b) (spherical r a b) + inner 3 (spherical s c d) (spherical s c d)
                - 2 * inner 3 (spherical r a b) (spherical s c d)).
  - unfold inner, minus3, vget. cbn [sum_to nth]. ring.
  - rewrite !inner_spherical. rewrite !sub_self. rewrite cos_0.
    pose proof (trig1 a). pose proof (trig1 c).
    replace (sin a * sin a + cos a * cos a * 1) with 1 by lra.
    replace (sin c * sin c + cos c * cos c * 1) with 1 by lra. ring.
Qed.

Lemma mu_is_cosine so_lat so_lon lat lon range :
  - (PI / 2) <= lat <= PI / 2 ->
  let p := spherical (centric_radius eq pol lat) lat lon in
  let o := spherical range so_lat so_lon in
  mu eq pol so_lat so_lon lat lon range = angle_cosine (gradient eq pol p) (minus3 o p).
Proof.
  intros H. cbv zeta. destruct (gradient_normal (centric_radius eq pol lat) lat lon H) as (t & Ht & E). rewrite E.
  rewrite angle_unit; [|apply Rmult_lt_0_compat; [apply radius_pos|exact Ht]|apply norm3_spherical; lra].
  rewrite inner_sub, !inner_spherical. unfold norm3. rewrite distance_sq. unfold mu.
  rewrite cos_minus with (x := lat). rewrite !sub_self. rewrite cos_0.
  replace (cos (lon - so_lon)) with (cos (so_lon - lon)) by (rewrite <- cos_neg; f_equal; ring).
  f_equal. ring.
Qed.

Lemma mu0_is_cosine ss_lat ss_lon lat lon :
  - (PI / 2) <= lat <= PI / 2 ->
  let p := spherical (centric_radius eq pol lat) lat lon in
  mu0 eq pol ss_lat ss_lon lat lon = angle_cosine (gradient eq pol p) (spherical 1 ss_lat ss_lon).
Proof.
  intros H. cbv zeta. destruct (gradient_normal (centric_radius eq pol lat) lat lon H) as (t & Ht & E). rewrite E.
  rewrite angle_unit; [|apply Rmult_lt_0_compat; [apply radius_pos|exact Ht]|apply norm3_spherical; lra].
  rewrite inner_spherical, norm3_spherical by lra. unfold mu0.
  replace (cos (lon - ss_lon)) with (cos (ss_lon - lon)) by (rewrite <- cos_neg; f_equal; ring).
  field.
Qed.

Lemma cos_phase_is_cosine so_lat so_lon ss_lat ss_lon lat lon range :
  let p := spherical (centric_radius eq pol lat) lat lon in
  let o := spherical range so_lat so_lon in
  cos_phase eq pol so_lat so_lon ss_lat ss_lon lat lon range = angle_cosine (spherical 1 ss_lat ss_lon) (minus3 o p).
Proof.
  cbv zeta. unfold angle_cosine. rewrite norm3_spherical by lra. rewrite Rmult_1_l.
  rewrite inner_sub, !inner_spherical. unfold norm3. rewrite distance_sq. unfold cos_phase.
  replace (cos (ss_lon - so_lon)) with (cos (so_lon - ss_lon)) by (rewrite <- cos_neg; f_equal; ring).
  replace (cos (ss_lon - lon)) with (cos (lon - ss_lon)) by (rewrite <- cos_neg; f_equal; ring).
  f_equal. ring.
Qed.

(** *** C40 *)

Lemma fe2 : first_eccentricity eq pol ^ 2 = 1 - / K.
Proof.
  unfold first_eccentricity. rewrite <- Rsqr_pow2, Rsqr_sqrt, K_inv; [reflexivity|].
  pose proof k_centric. lra.
Qed.

Lemma pow15 x : 0 < x -> Rpower x (3 / 2) = sqrt x ^ 3.
Proof.
  intros H. replace (3 / 2) with (1 + / 2) by field. rewrite Rpower_plus, Rpower_1, Rpower_sqrt by exact H.
  rewrite <- (sqrt_sqrt x) at 1 by lra. ring.
Qed.

Let H2 lat := cos lat * cos lat + K * K * (sin lat * sin lat).

Lemma H2_pos lat : 1 <= H2 lat.
Proof.
  unfold H2. rewrite trig2. pose proof K_pos. assert (1 <= K * K) by nra. generalize dependent (K * K).
  intros k Hk. assert (0 <= sin lat * sin lat) by nra. nra.
Qed.

Lemma under_root lat : - (PI / 2) <= lat <= PI / 2 ->
  1 - first_eccentricity eq pol ^ 2 * sin (graphic_latitude eq pol lat) ^ 2 = W lat / H2 lat.
Proof.
  intros H. pose proof K_pos. destruct (ktan_sincos K lat) as (Hh & C & S); [lra|exact H|]. cbv zeta in *.
  fold (H2 lat) in *. unfold graphic_latitude. fold K. rewrite S, fe2.
  pose proof (H2_pos lat).
  replace ((K * sin lat / sqrt (H2 lat)) ^ 2) with (K * K * (sin lat * sin lat) / H2 lat).
  - unfold W, H2. field. split; [fold (H2 lat); lra|lra].
  - rewrite <- (sqrt_sqrt (H2 lat)) at 1 by lra. field. lra.
Qed.

Lemma N_value lat : - (PI / 2) <= lat <= PI / 2 -> N eq pol lat = centric_radius eq pol lat * sqrt (H2 lat).
Proof.
  intros H. unfold N. rewrite under_root by exact H. rewrite radius_W.
  pose proof (W_pos lat). pose proof (H2_pos lat). rewrite sqrt_div by lra.
  assert (0 < sqrt (W lat)) by (apply sqrt_lt_R0; lra). assert (0 < sqrt (H2 lat)) by (apply sqrt_lt_R0; lra).
  field. split; lra.
Qed.

Lemma N_axis lat : - (PI / 2) <= lat <= PI / 2 ->
  N eq pol lat * cos (graphic_latitude eq pol lat) = centric_radius eq pol lat * cos lat.
Proof.
  intros H. rewrite N_value by exact H. pose proof K_pos.
  destruct (ktan_sincos K lat) as (Hh & C & S); [lra|exact H|]. cbv zeta in *. fold (H2 lat) in *.
  unfold graphic_latitude. fold K. rewrite C. field. lra.
Qed.

Lemma M_value lat : - (PI / 2) <= lat <= PI / 2 ->
  M eq pol lat = (centric_radius eq pol lat * sqrt (H2 lat)) ^ 3 / (K * (eq * eq)).
Proof.
  intros H. unfold M. rewrite under_root by exact H. rewrite fe2.
  pose proof (W_pos lat). pose proof (H2_pos lat). pose proof K_pos.
  rewrite pow15 by (apply Rdiv_lt_0_compat; lra). rewrite sqrt_div by lra. rewrite radius_W.
  assert (0 < sqrt (W lat)) by (apply sqrt_lt_R0; lra). assert (0 < sqrt (H2 lat)) by (apply sqrt_lt_R0; lra).
  field. repeat split; lra.
Qed.

Lemma M_curvature lat : - (PI / 2) <= lat <= PI / 2 ->
  M eq pol lat = ellipse_curvature_radius eq pol (centric_radius eq pol lat * cos lat) (centric_radius eq pol lat * sin lat).
Proof.
  intros H. rewrite M_value by exact H. unfold ellipse_curvature_radius.
  set (r := centric_radius eq pol lat). pose proof (radius_pos lat) as P. fold r in P. pose proof (H2_pos lat).
  replace (eq ^ 4 * (r * sin lat) ^ 2 + pol ^ 4 * (r * cos lat) ^ 2) with ((r * (pol * pol)) * (r * (pol * pol)) * H2 lat).
  2:{ unfold H2, K. field. lra. }
  rewrite sqrt_mult by (try lra; nra). rewrite sqrt_square by nra. unfold K. field. lra.
Qed.

Lemma MN_order lat : - (PI / 2) <= lat <= PI / 2 -> 0 < M eq pol lat <= N eq pol lat.
Proof.
  intros H. rewrite M_value, N_value by exact H. pose proof K_pos. pose proof (H2_pos lat). pose proof (W_pos lat).
  assert (P : 0 < centric_radius eq pol lat * sqrt (H2 lat)).
  { apply Rmult_lt_0_compat; [apply radius_pos|apply sqrt_lt_R0; lra]. }
  set (n := centric_radius eq pol lat * sqrt (H2 lat)) in *.
  assert (E : n * n * W lat = H2 lat * (eq * eq)).
  { unfold n. transitivity (centric_radius eq pol lat * centric_radius eq pol lat * W lat * (sqrt (H2 lat) * sqrt (H2 lat))); [ring|].
    rewrite radius_sq, sqrt_sqrt by lra. ring. }
  assert (KW : H2 lat <= K * W lat).
  { unfold H2, W. assert (0 <= cos lat * cos lat) by nra. nra. }
  assert (L : n * n <= K * (eq * eq)).
  { apply Rmult_le_reg_r with (W lat); [lra|]. rewrite E.
    replace (K * (eq * eq) * W lat) with (K * W lat * (eq * eq)) by ring. apply Rmult_le_compat_r; nra. }
  assert (Q : 0 < K * (eq * eq)) by (apply Rmult_lt_0_compat; nra).
  split; [apply Rdiv_lt_0_compat; auto; apply pow_lt; auto|].
  apply Rmult_le_reg_r with (K * (eq * eq)); auto. unfold Rdiv. rewrite Rmult_assoc, Rinv_l by lra. nra.
Qed.

Lemma MN_ends :
  M eq pol (PI / 2) = eq ^ 2 / pol /\ N eq pol (PI / 2) = eq ^ 2 / pol /\
  M eq pol 0 = pol ^ 2 / eq /\ N eq pol 0 = eq.
Proof.
  pose proof PI_RGT_0. rewrite !M_value, !N_value by lra. destruct radius_ends as (-> & -> & _).
  unfold H2. rewrite sin_PI2, cos_PI2, sin_0, cos_0.
  replace (0 * 0 + K * K * (1 * 1)) with (K * K) by ring. rewrite sqrt_square by (pose proof K_pos; lra).
  replace (1 * 1 + K * K * (0 * 0)) with 1 by ring. rewrite sqrt_1. unfold K. repeat split; field; lra.
Qed.

End WithRadii.

(** Cauchy-Schwarz. *)
Lemma angle_cosine_bound u v : -1 <= angle_cosine u v <= 1.
Proof.
  unfold angle_cosine.
  assert (CS : inner 3 u v * inner 3 u v <= inner 3 u u * inner 3 v v).
  { unfold inner. cbn [sum_to]. set (a := vget u 0). set (b := vget u 1). set (c := vget u 2).
    set (x := vget v 0). set (y := vget v 1). set (z := vget v 2).
    assert (0 <= (a * y - b * x) ^ 2) by apply pow2_ge_0.
    assert (0 <= (a * z - c * x) ^ 2) by apply pow2_ge_0.
    assert (0 <= (b * z - c * y) ^ 2) by apply pow2_ge_0. nra. }
  unfold norm3. set (nu := sqrt (inner 3 u u)). set (nv := sqrt (inner 3 v v)).
  assert (Eu : nu * nu = inner 3 u u) by (apply sqrt_sqrt, inner_pos).
  assert (Ev : nv * nv = inner 3 v v) by (apply sqrt_sqrt, inner_pos).
  assert (Pu : 0 <= nu) by apply sqrt_pos. assert (Pv : 0 <= nv) by apply sqrt_pos.
  destruct (Req_dec (nu * nv) 0) as [Z|Z].
  - assert (inner 3 u v = 0).
    { rewrite <- Eu, <- Ev in CS. assert (nu * nu * (nv * nv) = (nu * nv) * (nu * nv)) by ring. rewrite Z in H. nra. }
    rewrite H. unfold Rdiv. rewrite Rmult_0_l. lra.
  - assert (0 < nu * nv) by (assert (0 <= nu * nv) by nra; lra).
    rewrite <- Eu, <- Ev in CS.
    assert (A : Rabs (inner 3 u v) <= nu * nv).
    { unfold Rabs. destruct (Rcase_abs (inner 3 u v)).
      - destruct (Rle_lt_dec (- inner 3 u v) (nu * nv)); auto. exfalso. nra.
      - destruct (Rle_lt_dec (inner 3 u v) (nu * nv)); auto. exfalso. nra. }
    apply Rabs_le_inv in A.
    split; apply Rmult_le_reg_r with (nu * nv); auto; unfold Rdiv; rewrite Rmult_assoc, Rinv_l by lra; lra.
Qed.

(** ** Intersection *)

Lemma atan2_polar x y : x <> 0 \/ y <> 0 ->
  hypot x y * cos (atan2 y x) = x /\ hypot x y * sin (atan2 y x) = y /\ - PI < atan2 y x <= PI.
Proof.
  intros N. pose proof PI_RGT_0. unfold hypot.
  assert (P : 0 < x * x + y * y) by nra. set (h := sqrt (x * x + y * y)).
  assert (Hh : 0 < h) by (now apply sqrt_lt_R0).
  assert (Q : forall s, s * s = x * x -> s <> 0 -> 0 < s ->
     sqrt (1 + Rsqr (y / x)) = h / s).
  { intros s Es Ns Ps. assert (x <> 0) by nra.
    replace (1 + Rsqr (y / x)) with ((x * x + y * y) / (s * s)) by (rewrite Es; unfold Rsqr; field; auto).
    rewrite sqrt_div by nra. rewrite sqrt_square by lra. reflexivity. }
  unfold atan2. destruct (Rlt_bool_spec 0 x) as [Hx|Hx].
  - rewrite cos_atan, sin_atan, (Q x) by lra. pose proof (atan_bound (y / x)).
    repeat split; try lra; field; lra.
  - destruct (Rlt_bool_spec x 0) as [Hx'|Hx'].
    + assert (B := atan_bound (y / x)).
      destruct (Rle_bool_spec 0 y) as [Hy|Hy].
      * rewrite neg_cos, neg_sin, cos_atan, sin_atan, (Q (- x)) by nra.
        repeat split; try lra; try (field; lra).
        assert (y / x <= 0). { unfold Rdiv. assert (/ x < 0) by (apply Rinv_lt_0_compat; lra). nra. }
        destruct (Req_dec (y / x) 0) as [->|]; [rewrite atan_0; lra|].
        assert (atan (y / x) < 0); [|lra]. rewrite <- atan_0. apply atan_increasing. lra.
      * replace (atan (y / x) - PI) with (- (- atan (y / x) + PI)) by ring.
        rewrite cos_neg, sin_neg, neg_cos, neg_sin, cos_neg, sin_neg, cos_atan, sin_atan, (Q (- x)) by nra.
        repeat split; try lra; try (field; lra).
        assert (0 < y / x). { unfold Rdiv. assert (/ x < 0) by (apply Rinv_lt_0_compat; lra). nra. }
        assert (0 < atan (y / x)); [|lra]. rewrite <- atan_0. apply atan_increasing. lra.
    + assert (x = 0) by lra. subst x. assert (y <> 0) by lra.
      assert (Eh : h = Rabs y).
      { unfold h. replace (0 * 0 + y * y) with (Rsqr y) by (unfold Rsqr; ring). apply sqrt_Rsqr_abs. }
      destruct (Rlt_bool_spec 0 y) as [Hy|Hy].
      * rewrite cos_PI2, sin_PI2, Eh, Rabs_pos_eq by lra. repeat split; lra.
      * rewrite Rlt_bool_true by lra. rewrite cos_neg, sin_neg, cos_PI2, sin_PI2, Eh, Rabs_left by lra. repeat split; lra.
Qed.

(** The coordinates computed for a point other than the centre. *)
Lemma coordinates x y z : x <> 0 \/ y <> 0 \/ z <> 0 ->
  exists lat, atan_over z (hypot x y) = Num lat /\ has_coordinates [x; y; z] lat (atan2 x (- y)).
Proof.
  intros N. pose proof PI_RGT_0. unfold atan_over, has_coordinates.
  destruct (Req_bool_spec (hypot x y) 0) as [E|E].
  - assert (S0 : x * x + y * y = 0).
    { apply sqrt_eq_0; [nra|exact E]. }
    assert (x = 0) by nra. assert (y = 0) by nra. subst.
    assert (A : atan2 0 (- 0) = 0).
    { unfold atan2. rewrite !Rlt_bool_false by lra. reflexivity. }
    rewrite A, cos_0, sin_0.
    destruct (Rlt_bool_spec 0 z).
    + exists (PI / 2). split; [reflexivity|]. exists z. rewrite cos_PI2, sin_PI2.
      repeat split; try lra. elements; ring.
    + rewrite Rlt_bool_true by lra. exists (- (PI / 2)). split; [reflexivity|]. exists (- z).
      rewrite cos_neg, sin_neg, cos_PI2, sin_PI2. repeat split; try lra. elements; ring.
  - set (h := hypot x y) in *.
    assert (P : 0 < h) by (unfold h, hypot in *; pose proof (sqrt_pos (x * x + y * y)); lra).
    assert (Eh : h * h = x * x + y * y) by (apply sqrt_sqrt; nra).
    assert (NN : - y <> 0 \/ x <> 0).
    { destruct (Req_dec x 0) as [->|]; [|auto]. left. intros K. apply E. unfold h, hypot. 
      assert (Y : y = 0) by lra. rewrite Y. replace (0 * 0 + 0 * 0) with 0 by ring. apply sqrt_0. }
    destruct (atan2_polar (- y) x NN) as (C & S & B).
    assert (Hh : hypot (- y) x = h) by (unfold h, hypot; f_equal; ring). rewrite Hh in C, S.
    exists (atan (z / h)). split; [reflexivity|]. exists (sqrt (h * h + z * z)).
    assert (R0 : 0 < h * h + z * z) by nra.
    assert (Pr : 0 < sqrt (h * h + z * z)) by (now apply sqrt_lt_R0).
    pose proof (atan_bound (z / h)).
    rewrite cos_atan, sin_atan.
    assert (Q : sqrt (1 + Rsqr (z / h)) = sqrt (h * h + z * z) / h).
    { replace (1 + Rsqr (z / h)) with ((h * h + z * z) / (h * h)) by (unfold Rsqr; field; auto).
      rewrite sqrt_div by nra. rewrite sqrt_square by lra. reflexivity. }
    rewrite Q. split; [exact Pr|]. split; [lra|]. split; [exact B|].
    elements.
    + rewrite <- S at 1. field. split; lra.
    + replace y with (- (- y)) at 1 by ring. rewrite <- C at 1. field. split; lra.
    + field. split; lra.
Qed.

Lemma quadratic_at (eq pol : R) p d k : eq <> 0 -> pol <> 0 ->
  let a := 0 + vget d 0 / eq * (vget d 0 / eq) + vget d 1 / eq * (vget d 1 / eq) + vget d 2 / pol * (vget d 2 / pol) in
  let b := 0 + 2 * (vget d 0 / eq) * (vget p 0 / eq) + 2 * (vget d 1 / eq) * (vget p 1 / eq) + 2 * (vget d 2 / pol) * (vget p 2 / pol) in
  let c := -1 + vget p 0 / eq * (vget p 0 / eq) + vget p 1 / eq * (vget p 1 / eq) + vget p 2 / pol * (vget p 2 / pol) in
  on_spheroid eq pol (along p d k) <-> a * k * k + b * k + c = 0.
Proof.
  intros He Hp. cbv zeta. unfold on_spheroid, along. cbn [vget nth].
  set (p0 := vget p 0). set (p1 := vget p 1). set (p2 := vget p 2).
  set (d0 := vget d 0). set (d1 := vget d 1). set (d2 := vget d 2).
  assert (E : ((p0 + k * d0) ^ 2 + (p1 + k * d1) ^ 2) / eq ^ 2 + (p2 + k * d2) ^ 2 / pol ^ 2 - 1 =
   (0 + d0 / eq * (d0 / eq) + d1 / eq * (d1 / eq) + d2 / pol * (d2 / pol)) * k * k +
   (0 + 2 * (d0 / eq) * (p0 / eq) + 2 * (d1 / eq) * (p1 / eq) + 2 * (d2 / pol) * (p2 / pol)) * k +
   (-1 + p0 / eq * (p0 / eq) + p1 / eq * (p1 / eq) + p2 / pol * (p2 / pol))).
  { field. split; assumption. }
  unfold vget in *. cbn [nth] in *. fold p0 p1 p2 d0 d1 d2. lra.
Qed.

Section Intersect.
Variables eq pol : R.
Hypothesis Hpol : 0 < pol.
Hypothesis Hle : pol <= eq.

Let qa d := 0 + vget d 0 / eq * (vget d 0 / eq) + vget d 1 / eq * (vget d 1 / eq) + vget d 2 / pol * (vget d 2 / pol).
Let qb p d := 0 + 2 * (vget d 0 / eq) * (vget p 0 / eq) + 2 * (vget d 1 / eq) * (vget p 1 / eq) + 2 * (vget d 2 / pol) * (vget p 2 / pol).
Let qc p := -1 + vget p 0 / eq * (vget p 0 / eq) + vget p 1 / eq * (vget p 1 / eq) + vget p 2 / pol * (vget p 2 / pol).

Lemma quotient_zero x y : 0 < y -> x / y = 0 -> x = 0.
Proof. intros Hy H. apply Rmult_integral in H as [H|H]; auto. apply Rinv_neq_0_compat in H; [tauto|lra]. Qed.

Lemma qa_pos d : qa d <= 0 <-> vget d 0 = 0 /\ vget d 1 = 0 /\ vget d 2 = 0.
Proof.
  unfold qa. set (x := vget d 0 / eq). set (y := vget d 1 / eq). set (z := vget d 2 / pol). split.
  - intros H. assert (x = 0) by nra. assert (y = 0) by nra. assert (z = 0) by nra.
    repeat split; [apply (quotient_zero _ eq)|apply (quotient_zero _ eq)|apply (quotient_zero _ pol)]; auto; lra.
  - intros (E0 & E1 & E2). unfold x, y, z. rewrite E0, E1, E2. unfold Rdiv. rewrite !Rmult_0_l. lra.
Qed.

Lemma qc_outside p : outside eq pol p -> 0 < qc p.
Proof.
  unfold outside, qc. intros H.
  replace (-1 + vget p 0 / eq * (vget p 0 / eq) + vget p 1 / eq * (vget p 1 / eq) + vget p 2 / pol * (vget p 2 / pol))
    with ((vget p 0 ^ 2 + vget p 1 ^ 2) / eq ^ 2 + vget p 2 ^ 2 / pol ^ 2 - 1) by (field; split; lra). lra.
Qed.

(** The two values of quadratic_roots for a line of sight from outside. *)
Lemma sight_roots a b c : 0 < a -> 0 < c -> 0 <= b * b - 4 * a * c ->
  exists k1 k2, quadratic_roots a b c = Some (Num k1, Num k2) /\
    (forall x, a * x * x + b * x + c = 0 <-> x = k1 \/ x = k2) /\
    (k2 < k1 <-> b < 0 /\ 0 < b * b - 4 * a * c) /\ (b < 0 -> 0 < k2 /\ 0 < k1) /\ (0 <= b -> k1 < 0 /\ k2 < 0).
Proof.
  intros Ha Hc Hd. destruct (quadratic_some a b c) as (k1 & k2 & E & Sol); [lra|right; lra|exact Hd|].
  exists k1, k2. split; [exact E|]. split; [exact Sol|].
  unfold quadratic_roots in E. rewrite Rlt_bool_false in E by lra.
  set (d := b * b - 4 * a * c) in *. set (s := sqrt d) in *.
  assert (Hs : s * s = d) by (apply sqrt_sqrt; lra). assert (P : 0 <= s) by apply sqrt_pos.
  set (q := - (b + IZR (sgn b) * s) / 2) in *.
  assert (Bn : b <> 0) by (intros ->; unfold d in Hd; nra).
  assert (Qn : q <> 0 /\ (b < 0 -> 0 < q) /\ (0 < b -> q < 0) /\ q * q + b * q + a * c = 0).
  { unfold q. destruct (sgn_cases b) as [[B ->]|[B ->]].
    - repeat split; try lra. unfold d in Hs. nra.
    - repeat split; try lra. unfold d in Hs. nra. }
  destruct Qn as (Qn & Qp & Qm & Qe).
  unfold num_div, num2 in E. rewrite !Req_bool_false in E by lra. injection E as E1 E2.
  assert (V1 : k1 * a = q) by (rewrite <- E1; field; lra).
  assert (V2 : k2 * q = c) by (rewrite <- E2; field; lra).
  assert (K1 : k1 = (- b - IZR (sgn b) * s) / (2 * a)).
  { rewrite <- E1. unfold q. field. lra. }
  assert (SumK : (k1 + k2) * a = - b).
  { assert (Z : ((k1 + k2) * a + b) * q = 0).
    { transitivity (k1 * a * q + a * (k2 * q) + b * q); [ring|]. rewrite V1, V2. lra. }
    apply Rmult_integral in Z as [Z|Z]; lra. }
  assert (Dif : (k1 - k2) * a = - (IZR (sgn b) * s)).
  { transitivity (2 * (k1 * a) - (k1 + k2) * a); [ring|]. rewrite SumK, V1. unfold q. field. }
  repeat split.
  - destruct (sgn_cases b) as [[B S]|[B S]]; [|exact B]. exfalso. rewrite S in Dif. nra.
  - assert (s <> 0). { intros Z. rewrite Z, Rmult_0_r, Ropp_0 in Dif. assert (k1 - k2 = 0) by nra. lra. } nra.
  - intros [B D]. destruct (sgn_cases b) as [[? S]|[? S]]; [lra|]. rewrite S in Dif. assert (0 < s) by nra. nra.
  - specialize (Qp H). nra.
  - specialize (Qp H). nra.
  - assert (0 < b) by lra. specialize (Qm H0). nra.
  - assert (0 < b) by lra. specialize (Qm H0). nra.
Qed.

Lemma bad_input_iff p d : ellipse_intersection eq pol p d = Ok bad_input <->
  vget d 0 = 0 /\ vget d 1 = 0 /\ vget d 2 = 0.
Proof.
  unfold ellipse_intersection. fold (qa d). fold (qb p d). fold (qc p). rewrite <- qa_pos.
  destruct (Rle_bool_spec (qa d) 0); [tauto|]. split; [|intros; lra].
  destruct (quadratic_roots (qa d) (qb p d) (qc p)) as [[k1 k2]|]; [|discriminate].
  destruct (nlt k2 k1); [|discriminate]. destruct k2; discriminate.
Qed.

Lemma miss_iff p d : ~ (vget d 0 = 0 /\ vget d 1 = 0 /\ vget d 2 = 0) -> outside eq pol p ->
  (ellipse_intersection eq pol p d = Ok miss <-> forall k, ~ on_spheroid eq pol (along p d k)).
Proof.
  intros Nd Ho. rewrite <- qa_pos in Nd. apply qc_outside in Ho.
  unfold ellipse_intersection. fold (qa d). fold (qb p d). fold (qc p).
  rewrite Rle_bool_false by lra.
  destruct (Rlt_le_dec (qb p d * qb p d - 4 * qa d * qc p) 0) as [D|D].
  - rewrite (proj2 (quadratic_none _ _ _) D). split; [|reflexivity]. intros _ k.
    rewrite quadratic_at by lra. fold (qa d). fold (qb p d). fold (qc p). intros Q.
    assert (0 <= (2 * qa d * k + qb p d) ^ 2) by apply pow2_ge_0.
    assert ((2 * qa d * k + qb p d) ^ 2 = 4 * qa d * (qa d * k * k + qb p d * k + qc p) + (qb p d * qb p d - 4 * qa d * qc p)) by ring.
    rewrite Q in H0. lra.
  - assert (Ha : 0 < qa d) by lra. destruct (sight_roots _ _ _ Ha Ho D) as (k1 & k2 & E & Sol & _). rewrite E. split.
    + destruct (nlt (Num k2) (Num k1)); discriminate.
    + intros H. exfalso. apply (H k1). rewrite quadratic_at by lra. apply Sol. auto.
Qed.

Lemma found_nearest p d lat lon : outside eq pol p ->
  ellipse_intersection eq pol p d = Ok (found lat lon) ->
  exists k l, 0 < k /\ lat = Num l /\ on_spheroid eq pol (along p d k) /\ has_coordinates (along p d k) l lon /\
    (forall k', on_spheroid eq pol (along p d k') -> k <= k').
Proof.
  intros Ho. apply qc_outside in Ho.
  unfold ellipse_intersection. fold (qa d). fold (qb p d). fold (qc p).
  destruct (Rle_bool_spec (qa d) 0) as [|Ha]; [discriminate|].
  destruct (Rlt_le_dec (qb p d * qb p d - 4 * qa d * qc p) 0) as [D|D].
  { rewrite (proj2 (quadratic_none _ _ _) D). discriminate. }
  destruct (sight_roots _ _ _ Ha Ho D) as (k1 & k2 & E & Sol & Ord & Pos & _). rewrite E.
  unfold nlt. cbn [a_lt ar_num num_lt]. destruct (Rlt_bool_spec k2 k1) as [L|L]; [|discriminate].
  destruct (proj1 Ord L) as [B _]. intros H. injection H as E1 E2.
  assert (On : on_spheroid eq pol (along p d k2)) by (rewrite quadratic_at by lra; apply Sol; auto).
  destruct (coordinates (vget p 0 + k2 * vget d 0) (vget p 1 + k2 * vget d 1) (vget p 2 + k2 * vget d 2)) as (l & El & Hl).
  { destruct (Req_dec (vget p 0 + k2 * vget d 0) 0) as [Z0|]; [|auto].
    destruct (Req_dec (vget p 1 + k2 * vget d 1) 0) as [Z1|]; [|auto].
    right; right. intros Z2. unfold on_spheroid, along in On. unfold vget in *. cbn [nth] in On.
    rewrite Z0, Z1, Z2 in On. unfold Rdiv in On. ring_simplify in On. lra. }
  exists k2, l. rewrite <- E1, <- E2. split; [apply Pos; exact B|]. split; [exact El|]. split; [exact On|].
  split; [exact Hl|]. intros k'. rewrite quadratic_at by lra. fold (qa d). fold (qb p d). fold (qc p).
  rewrite Sol. intros [->| ->]; lra.
Qed.

Lemma found_iff p d : outside eq pol p ->
  ((exists lat lon, ellipse_intersection eq pol p d = Ok (found lat lon)) <->
   exists k k', 0 < k /\ 0 < k' /\ k <> k' /\ on_spheroid eq pol (along p d k) /\ on_spheroid eq pol (along p d k')).
Proof.
  intros Ho. apply qc_outside in Ho.
  unfold ellipse_intersection. fold (qa d). fold (qb p d). fold (qc p).
  destruct (Rle_bool_spec (qa d) 0) as [Z|Ha].
  { split; [intros (? & ? & ?); discriminate|]. intros (k & _ & _ & _ & _ & On & _). exfalso.
    rewrite quadratic_at in On by lra. fold (qa d) (qb p d) (qc p) in On. apply qa_pos in Z as (Z0 & Z1 & Z2).
    assert (qa d = 0) by (unfold qa; rewrite Z0, Z1, Z2; unfold Rdiv; ring).
    assert (qb p d = 0) by (unfold qb; rewrite Z0, Z1, Z2; unfold Rdiv; ring). rewrite H, H0 in On. lra. }
  assert (Q : forall k, on_spheroid eq pol (along p d k) <-> qa d * k * k + qb p d * k + qc p = 0)
    by (intros k; apply quadratic_at; lra).
  destruct (Rlt_le_dec (qb p d * qb p d - 4 * qa d * qc p) 0) as [D|D].
  { rewrite (proj2 (quadratic_none _ _ _) D). split; [intros (? & ? & ?); discriminate|].
    intros (k & _ & _ & _ & _ & On & _). exfalso. apply Q in On.
    assert (0 <= (2 * qa d * k + qb p d) ^ 2) by apply pow2_ge_0.
    assert ((2 * qa d * k + qb p d) ^ 2 = 4 * qa d * (qa d * k * k + qb p d * k + qc p) + (qb p d * qb p d - 4 * qa d * qc p)) by ring.
    rewrite On in H0. lra. }
  destruct (sight_roots _ _ _ Ha Ho D) as (k1 & k2 & E & Sol & Ord & Pos & Neg). rewrite E.
  unfold nlt. cbn [a_lt ar_num num_lt]. destruct (Rlt_bool_spec k2 k1) as [L|L].
  - destruct (proj1 Ord L) as [B _]. destruct (Pos B). split; [intros _|eauto].
    exists k2, k1. rewrite !Q, !Sol. repeat split; auto; lra.
  - split; [intros (? & ? & ?); discriminate|]. intros (k & k' & P & P' & N & On & On'). exfalso.
    apply Q, Sol in On. apply Q, Sol in On'.
    destruct (Rlt_le_dec (qb p d) 0) as [B|B].
    + assert (k1 <> k2) by (intros ->; destruct On, On'; subst; auto).
      assert (D0 : 0 < qb p d * qb p d - 4 * qa d * qc p).
      { destruct D as [D|D]; auto. exfalso. apply H. 
        assert (R1 : qa d * k1 * k1 + qb p d * k1 + qc p = 0) by (apply Sol; auto).
        assert (R2 : qa d * k2 * k2 + qb p d * k2 + qc p = 0) by (apply Sol; auto).
        assert (S1 : (2 * qa d * k1 + qb p d) * (2 * qa d * k1 + qb p d) = 0).
        { transitivity (4 * qa d * (qa d * k1 * k1 + qb p d * k1 + qc p) + (qb p d * qb p d - 4 * qa d * qc p)); [ring|rewrite R1, <- D; ring]. }
        assert (S2 : (2 * qa d * k2 + qb p d) * (2 * qa d * k2 + qb p d) = 0).
        { transitivity (4 * qa d * (qa d * k2 * k2 + qb p d * k2 + qc p) + (qb p d * qb p d - 4 * qa d * qc p)); [ring|rewrite R2, <- D; ring]. }
        assert (T1 : 2 * qa d * k1 + qb p d = 0) by nra. assert (T2 : 2 * qa d * k2 + qb p d = 0) by nra.
        assert (qa d * (k1 - k2) = 0) by lra. apply Rmult_integral in H0 as [?|?]; lra. }
      pose proof (proj2 Ord (conj B D0)). lra.
    + destruct (Neg B). destruct On; lra.
Qed.

Lemma no_throw p d : (exists h, ellipse_intersection eq pol p d = Ok h) \/ ellipse_intersection eq pol p d = UB ub_assert.
Proof.
  unfold ellipse_intersection. destruct (Rle_bool _ _); [eauto|].
  destruct (quadratic_roots _ _ _) as [[k1 k2]|]; [|eauto]. destruct (nlt k2 k1); [|auto]. destruct k2; eauto.
Qed.

End Intersect.

(** A tangent line of sight, and a line of sight away from the body. *)
Lemma unit_sphere_abort : 
  ellipse_intersection 1 1 [1; -2; 0] [0; 1; 0] = UB ub_assert /\
  on_spheroid 1 1 (along [1; -2; 0] [0; 1; 0] 2) /\ outside 1 1 [1; -2; 0] /\
  ellipse_intersection 1 1 [0; -2; 0] [0; -1; 0] = UB ub_assert /\
  outside 1 1 [0; -2; 0] /\
  (forall k, 0 <= k -> ~ on_spheroid 1 1 (along [0; -2; 0] [0; -1; 0] k)).
Proof.
  assert (O1 : outside 1 1 [1; -2; 0]) by (unfold outside, vget; cbn [nth]; lra).
  assert (O2 : outside 1 1 [0; -2; 0]) by (unfold outside, vget; cbn [nth]; lra).
  assert (Nneg : forall k, 0 <= k -> ~ on_spheroid 1 1 (along [0; -2; 0] [0; -1; 0] k)).
  { intros k Hk H. unfold on_spheroid, along, vget in H. cbn [nth] in H. nra. }
  split; [|split; [|split; [exact O1|split; [|split; [exact O2|exact Nneg]]]]].
  - destruct (no_throw 1 1 [1; -2; 0] [0; 1; 0]) as [(h & E)|E]; [|exact E]. exfalso. destruct h as [| |la lo].
    + apply bad_input_iff in E; [|lra..]. unfold vget in E. cbn [nth] in E. lra.
    + assert (Nd : ~ (vget [0; 1; 0] 0 = 0 /\ vget [0; 1; 0] 1 = 0 /\ vget [0; 1; 0] 2 = 0)) by (unfold vget; cbn [nth]; lra).
      apply (proj1 (miss_iff 1 1 Rlt_0_1 (Rle_refl 1) _ _ Nd O1)) with (k := 2) in E. apply E.
      unfold on_spheroid, along, vget. cbn [nth]. field.
    + assert (F : exists lat lon, ellipse_intersection 1 1 [1; -2; 0] [0; 1; 0] = Ok (found lat lon)) by eauto.
      apply found_iff in F; [|lra|lra|exact O1]. destruct F as (k & k' & _ & _ & N & A & B).
      unfold on_spheroid, along, vget in A, B. cbn [nth] in A, B. apply N.
      assert (k = 2) by nra. assert (k' = 2) by nra. lra.
  - unfold on_spheroid, along, vget. cbn [nth]. field.
  - destruct (no_throw 1 1 [0; -2; 0] [0; -1; 0]) as [(h & E)|E]; [|exact E]. exfalso. destruct h as [| |la lo].
    + apply bad_input_iff in E; [|lra..]. unfold vget in E. cbn [nth] in E. lra.
    + assert (Nd : ~ (vget [0; -1; 0] 0 = 0 /\ vget [0; -1; 0] 1 = 0 /\ vget [0; -1; 0] 2 = 0)) by (unfold vget; cbn [nth]; lra).
      apply (proj1 (miss_iff 1 1 Rlt_0_1 (Rle_refl 1) _ _ Nd O2)) with (k := -1) in E. apply E.
      unfold on_spheroid, along, vget. cbn [nth]. field.
    + assert (F : exists lat lon, ellipse_intersection 1 1 [0; -2; 0] [0; -1; 0] = Ok (found lat lon)) by eauto.
      apply found_iff in F; [|lra|lra|exact O2]. destruct F as (k & k' & P & _ & N & A & B).
      apply (Nneg k); [lra|exact A].
Qed.
