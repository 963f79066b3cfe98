(** Lemmas about complete views: C42, C43, C45, C78, C79. *)
From Coq Require Import List ZArith Reals Lra Lia Bool.
From Flocq Require Import Core BinarySingleNaN.
From Verif Require Import Base Flt FltFacts Num LinAlg_Model Maths_Model Maths_Spec Maths_Proofs LinAlg_Proofs
  Spheroid_Model Spheroid_Spec Spheroid_Proofs View_Model View_Spec View_Proofs ViewRot_Proofs.
Import ListNotations.
Open Scope R_scope.

(** A view whose matrices, center and focal length agree with each other. *)
Definition aimed (v : view) (kpp n sc lc : R) : Prop :=
  0 < v_pol v <= v_eq v /\ 0 < kpp /\ 0 < n /\
  v_km_per_pixel v = Num kpp /\ v_sample_center v = Num sc /\ v_line_center v = Num lc /\
  v_focal_length_pixels v = Num (n / kpp) /\
  orthogonal (v_o2b v) /\ v_b2o v = transpose 3 3 (v_o2b v) /\
  v_range_b v = observer v /\
  m3v (v_o2b v) [(v_OA_s v - sc) * kpp; - n; (lc - v_OA_l v) * kpp] = v_range_b v.

Lemma finalize_center pro eq pol g term corr samples lines sub_lat sub_lon range kpp os ol sc lc pa :
  center_given eq pol g samples lines sub_lat sub_lon range kpp os ol sc lc pa ->
  offset kpp os ol sc lc < range -> offset kpp os ol sc lc <= range * cos sub_lat ->
  exists Z X n,
    0 <= cos X /\ 0 < n /\ n * n + offset kpp os ol sc lc * offset kpp os ol sc lc = range * range /\
    let v := View pro eq pol sub_lat sub_lon range [0; - range * cos sub_lat; range * sin sub_lat]
                  (o2b_matrix Z X pa) (transpose 3 3 (o2b_matrix Z X pa)) n (Num kpp) (Num (n / kpp)) os ol (Num sc) (Num lc)
                  (g mu_limit_) (g sub_solar_lat_) (g sub_solar_lon_) term corr in
    finalize_setup pro eq pol g term corr samples lines = Ok (Some v) /\ aimed v kpp n sc lc.
Proof.
  intros C Hoff Hreach. destruct C as [Hrad Hsub Hphi Hlon Hran Hr Hpa Hk Hkp Hos Hol Hsc Hlc Hax].
  set (off := offset kpp os ol sc lc) in *.
  set (x := (os - sc) * kpp). set (z := (lc - ol) * kpp).
  assert (O2 : off * off = x * x + z * z).
  { unfold off, offset. pose proof (pow2_ge_0 (os - sc)). pose proof (pow2_ge_0 (lc - ol)).
    transitivity (kpp * kpp * (sqrt ((os - sc) ^ 2 + (lc - ol) ^ 2) * sqrt ((os - sc) ^ 2 + (lc - ol) ^ 2))); [ring|].
    rewrite sqrt_sqrt by lra. unfold x, z. ring. }
  assert (O0 : 0 <= off) by (apply Rmult_le_pos; [lra|apply sqrt_pos]).
  assert (Hmag : mag3 [x; 0; z] = off).
  { unfold mag3, vget. cbn [nth]. replace (x * x + 0 * 0 + z * z) with (off * off) by lra. now apply sqrt_square. }
  set (sq := (range - off) * (range + off)). assert (Hsq : 0 < sq) by (apply Rmult_lt_0_compat; lra).
  set (n := sqrt sq). assert (Hn : 0 < n) by (apply sqrt_lt_R0; exact Hsq).
  assert (N2 : n * n = range * range - off * off) by (unfold n; rewrite sqrt_sqrt by lra; unfold sq; ring).
  assert (Hxnz : x * x + n * n + z * z = range * range) by lra.
  assert (Hcos : 0 <= cos sub_lat) by (apply cos_ge_0; lra).
  assert (Hre : range * Rabs (sin sub_lat) <= n).
  { assert (S2 : Rabs (sin sub_lat) * Rabs (sin sub_lat) = sin sub_lat * sin sub_lat) by (rewrite <- Rabs_mult; apply Rabs_right; nra).
    pose proof (Rabs_pos (sin sub_lat)) as AP. set (w := Rabs (sin sub_lat)) in *. pose proof (trig2 sub_lat).
    assert (off * off <= (range * cos sub_lat) * (range * cos sub_lat)) by (apply Rmult_le_compat; lra).
    assert ((range * w) * (range * w) <= n * n).
    { replace (range * w * (range * w)) with (range * range * (w * w)) by ring. rewrite S2, N2.
      replace (range * cos sub_lat * (range * cos sub_lat)) with (range * range * (cos sub_lat * cos sub_lat)) in H0 by ring.
      rewrite H in H0. lra. }
    assert (0 <= range * w) by (apply Rmult_le_pos; lra). nra. }
  destruct (center_rotation sub_lat pa range x n z Hphi Hr Hn Hxnz Hre) as (Z & X & ER & HX & Em).
  exists Z, X, n. split; [exact HX|]. split; [exact Hn|]. split; [lra|]. cbv zeta.
  assert (Eos : (if num_isnan (g OA_s_) then ndiv (Num (IZR samples)) (Num 2) else g OA_s_) = Num os).
  { destruct Hos as [->|[-> ->]]; [reflexivity|]. unfold ndiv. cbn [num_isnan a_div ar_num num_div num2].
    rewrite Req_bool_false by lra. reflexivity. }
  assert (Eol : (if num_isnan (g OA_l_) then ndiv (Num (IZR lines)) (Num 2) else g OA_l_) = Num ol).
  { destruct Hol as [->|[-> ->]]; [reflexivity|]. unfold ndiv. cbn [num_isnan a_div ar_num num_div num2].
    rewrite Req_bool_false by lra. reflexivity. }
  assert (RK : exists fp, resolve_km_per_pixel g (Num os) (Num ol) = Ok (Num kpp, fp) /\
                (fp = NaN \/ fp = Num (n / kpp))).
  { unfold resolve_km_per_pixel. destruct Hk as [Hk|(Hk & f & s & Hf & Hs & Pf & Ps & Ek)].
    - exists NaN. rewrite Hk. cbn [num_isnan negb]. auto.
    - exists (Num (f * s)). rewrite Hk, Hf, Hs, Hran, Hsc, Hlc. cbn [num_isnan negb orb nmul nsub a_mul a_sub ar_num num2 nhypot3].
      unfold nmul, nsub, ndiv. cbn [a_mul a_sub a_div ar_num num2 nhypot3 num_div].
      set (h := sqrt _). 
      assert (Eh : h = sqrt ((os - sc) ^ 2 + (f * s) ^ 2 + (ol - lc) ^ 2)) by (unfold h; f_equal; ring).
      rewrite <- Eh in Ek. assert (Hfs : 0 < f * s) by (apply Rmult_lt_0_compat; lra).
      assert (P2 : 0 < (f * s) ^ 2) by (apply pow_lt; exact Hfs).
      pose proof (pow2_ge_0 (os - sc)). pose proof (pow2_ge_0 (ol - lc)).
      assert (0 < h) by (rewrite Eh; apply sqrt_lt_R0; lra).
      rewrite Req_bool_false by lra.
      split.
      + do 3 f_equal. rewrite <- Ek. field. lra.
      + right. f_equal. assert (Kfs : kpp * (f * s) = n); [|rewrite <- Kfs; field; lra].
        assert (HH : h * h = (os - sc) ^ 2 + (f * s) ^ 2 + (ol - lc) ^ 2) by (rewrite Eh; apply sqrt_sqrt; lra).
        assert (SQ : (kpp * (f * s)) * (kpp * (f * s)) = n * n).
        { rewrite N2, O2, <- Ek. replace (kpp * h * (kpp * h)) with (kpp * kpp * (h * h)) by ring. rewrite HH. unfold x, z. ring. }
        assert (0 < kpp * (f * s)) by (apply Rmult_lt_0_compat; lra). nra. }
  destruct RK as (fp & RK & Hfp).
  split.
  - unfold finalize_setup. rewrite Eos, Eol, RK. cbn [bind]. rewrite Hsub, Hlon, Hran, Hpa.
    replace (num_isnan (g lat_at_center_) || num_isnan (g lon_at_center_)) with true
      by (destruct Hax as [-> | ->]; cbn [num_isnan]; now rewrite ?orb_true_r).
    rewrite Hsc, Hlc. unfold nmul, nsub. cbn [a_mul a_sub ar_num num2]. fold x z. rewrite Hmag. fold sq.
    rewrite Rlt_bool_false by lra. fold n. rewrite ER. cbn [matrices].
    do 3 f_equal. destruct Hfp as [->| ->]; cbn [num_isnan]; [|reflexivity].
    unfold ndiv. cbn [a_div ar_num num_div num2]. rewrite Req_bool_false by lra. reflexivity.
  - unfold aimed. cbn [v_pol v_eq v_km_per_pixel v_sample_center v_line_center v_focal_length_pixels v_o2b v_b2o v_range_b v_OA_s v_OA_l].
    split; [exact Hrad|]. split; [exact Hkp|]. split; [exact Hn|].
    repeat (split; [reflexivity|]). split; [apply o2b_orthogonal|]. split; [reflexivity|].
    split; [|exact Em]. unfold observer. cbn [v_range v_sub_lat]. elements; ring.
Qed.

(** *** Visibility *)

(** Bilinear form of the spheroid. *)
Definition qform (eq pol : R) (u w : vector) : R :=
  (vget u 0 * vget w 0 + vget u 1 * vget w 1) / eq ^ 2 + vget u 2 * vget w 2 / pol ^ 2.

Lemma on_qform eq pol p : on_spheroid eq pol p <-> qform eq pol p p = 1.
Proof.
  unfold on_spheroid, qform. split; intros H; rewrite <- H; f_equal; f_equal; ring.
Qed.

Lemma surface_on v lat lon : 0 < v_pol v <= v_eq v -> on_spheroid (v_eq v) (v_pol v) (surface_point v lat lon).
Proof.
  intros H. unfold surface_point. set (l := if v_prograde v then _ else _).
  pose proof (radius_on (v_eq v) (v_pol v) (proj1 H) (proj2 H) lat (l - PI / 2)) as E.
  unfold on_spheroid, spherical, vget in *. cbn [nth] in *.
  rewrite cos_minus, sin_minus, cos_PI2, sin_PI2 in E. rewrite <- E. f_equal; f_equal; ring.
Qed.

Lemma mu_positive_form v lat lon : 0 < v_pol v <= v_eq v -> - (PI / 2) <= lat <= PI / 2 ->
  0 < mu (v_eq v) (v_pol v) (v_sub_lat v) (v_sub_lon v) lat lon (v_range v) ->
  1 < qform (v_eq v) (v_pol v) (surface_point v lat lon) (observer v).
Proof.
  intros Hr Hl Hm. set (eq := v_eq v) in *. set (pol := v_pol v) in *. rewrite (mu_is_cosine eq pol) in Hm by tauto.
  set (r := centric_radius eq pol lat) in *. set (p := spherical r lat lon) in *.
  set (o := spherical (v_range v) (v_sub_lat v) (v_sub_lon v)) in *.
  assert (On : inner 3 (gradient eq pol p) p = 1).
  { pose proof (radius_on eq pol (proj1 Hr) (proj2 Hr) lat lon) as On. fold r p in On. unfold on_spheroid in On.
    rewrite <- On. unfold inner, gradient, vget. cbn [sum_to nth]. field. lra. }
  assert (I : inner 3 (gradient eq pol p) o = qform eq pol (surface_point v lat lon) (observer v)).
  { unfold qform, inner, gradient, p, o, spherical, surface_point, observer, vget. cbn [sum_to nth]. fold eq pol r.
    destruct (v_prograde v); rewrite cos_minus, ?sin_minus; field; lra. }
  assert (P : 0 < inner 3 (gradient eq pol p) (minus3 o p)).
  { unfold angle_cosine in Hm. destruct (Rlt_le_dec 0 (inner 3 (gradient eq pol p) (minus3 o p))) as [|L]; [assumption|exfalso].
    set (i := inner 3 _ _) in *. set (d := norm3 (gradient eq pol p) * norm3 (minus3 o p)) in *.
    assert (Hd : 0 <= d) by (apply Rmult_le_pos; apply sqrt_pos).
    destruct Hd as [Hd|Hd]; [assert (/ d > 0) by (now apply Rinv_0_lt_compat); unfold Rdiv in Hm; nra|].
    assert (Zero : i = 0); [|rewrite Zero in Hm; unfold Rdiv in Hm; lra].
    symmetry in Hd. apply Rmult_integral in Hd as [Hd|Hd]; unfold norm3 in Hd; apply sqrt_eq_0 in Hd; try apply inner_pos.
    - exfalso. unfold inner in Hd, On. cbn [sum_to] in Hd, On. set (g := gradient eq pol p) in *.
      assert (vget g 0 = 0 /\ vget g 1 = 0 /\ vget g 2 = 0) as (E0 & E1 & E2) by (repeat split; nra).
      rewrite E0, E1, E2 in On. lra.
    - unfold i. unfold inner in *. cbn [sum_to] in *. set (m := minus3 o p) in *.
      assert (vget m 0 = 0 /\ vget m 1 = 0 /\ vget m 2 = 0) as (E0 & E1 & E2) by (repeat split; nra).
      rewrite E0, E1, E2. ring. }
  rewrite inner_sub, On, I in P. lra.
Qed.

Lemma weighted_sq a b u : 0 <= a -> 0 <= b -> 0 <= a * b * (u * u).
Proof. intros. apply Rmult_le_pos; [now apply Rmult_le_pos|apply Rle_0_sqr]. Qed.

(** A visible point is the first one on the line of sight. *)
Lemma first_hit eq pol o p t : 0 < pol <= eq -> is_vec 3 o -> is_vec 3 p -> 0 < t ->
  on_spheroid eq pol p -> 1 < qform eq pol p o ->
  exists lat lon, ellipse_intersection eq pol o (vscale (vsub p o) t) = Ok (found (Num lat) lon) /\
    has_coordinates p lat lon.
Proof.
  intros Hr Ho Hp Ht On V. unfold is_vec in *. vec3 o Ho. vec3 p Hp.
  apply on_qform in On.
  set (e2 := / eq ^ 2). set (p2 := / pol ^ 2).
  assert (He : 0 < e2) by (apply Rinv_0_lt_compat, pow_lt; lra). assert (Hpp : 0 < p2) by (apply Rinv_0_lt_compat, pow_lt; lra).
  unfold qform, vget, Rdiv in On, V. cbn [nth] in On, V. fold e2 p2 in On, V.
  set (oo := (x * x + y * y) * e2 + z * z * p2).
  assert (OO : 1 < oo).
  { assert (CS : ((x0 * x + y0 * y) * e2 + z0 * z * p2) * ((x0 * x + y0 * y) * e2 + z0 * z * p2) <=
                 ((x0 * x0 + y0 * y0) * e2 + z0 * z0 * p2) * oo).
    { unfold oo.
      assert (A1 : 0 <= e2 * e2 * ((x0 * y - y0 * x) * (x0 * y - y0 * x))) by (apply weighted_sq; lra).
      assert (A2 : 0 <= e2 * p2 * ((x0 * z - z0 * x) * (x0 * z - z0 * x))) by (apply weighted_sq; lra).
      assert (A3 : 0 <= e2 * p2 * ((y0 * z - z0 * y) * (y0 * z - z0 * y))) by (apply weighted_sq; lra).
      lra. }
    rewrite On, Rmult_1_l in CS. nra. }
  assert (Out : outside eq pol [x; y; z]).
  { unfold outside, vget, Rdiv. cbn [nth]. fold e2 p2. unfold oo in OO. lra. }
  set (d := vscale (vsub [x0; y0; z0] [x; y; z]) t).
  assert (Dd : d = [(x0 - x) * t; (y0 - y) * t; (z0 - z) * t]) by reflexivity.
  set (po := (x0 * x + y0 * y) * e2 + z0 * z * p2) in *.
  (* the quadratic along the line, in units of 1/t *)
  assert (G : forall k, qform eq pol (along [x; y; z] d k) (along [x; y; z] d k) - 1 =
                (1 - k * t) * (oo - 1 - k * t * (1 - 2 * po + oo))).
  { intros k. unfold qform, along, vget, Rdiv. rewrite Dd. cbn [nth]. fold e2 p2.
    set (u := k * t). replace (k * ((x0 - x) * t)) with (u * (x0 - x)) by (unfold u; ring).
    replace (k * ((y0 - y) * t)) with (u * (y0 - y)) by (unfold u; ring).
    replace (k * ((z0 - z) * t)) with (u * (z0 - z)) by (unfold u; ring).
    transitivity (oo * ((1 - u) * (1 - u)) + 2 * po * u * (1 - u) + u * u * ((x0 * x0 + y0 * y0) * e2 + z0 * z0 * p2) - 1);
      [unfold oo, po; ring|]. rewrite On. ring. }
  set (m := 1 - 2 * po + oo).
  assert (Hm : 0 < m).
  { assert (Mm : m = ((x0 - x) * (x0 - x) + (y0 - y) * (y0 - y)) * e2 + (z0 - z) * (z0 - z) * p2).
    { unfold m, oo, po. rewrite <- On at 1. ring. }
    assert (0 <= m).
    { rewrite Mm. apply Rplus_le_le_0_compat; apply Rmult_le_pos; try lra; [|apply Rle_0_sqr].
      apply Rplus_le_le_0_compat; apply Rle_0_sqr. }
    destruct H as [H|H]; [exact H|exfalso]. 
    assert (0 < (po - 1) * (po - 1)) by (apply Rmult_lt_0_compat; lra).
    assert (po * po <= oo).
    { assert (A1 : 0 <= e2 * e2 * ((x0 * y - y0 * x) * (x0 * y - y0 * x))) by (apply weighted_sq; lra).
      assert (A2 : 0 <= e2 * p2 * ((x0 * z - z0 * x) * (x0 * z - z0 * x))) by (apply weighted_sq; lra).
      assert (A3 : 0 <= e2 * p2 * ((y0 * z - z0 * y) * (y0 * z - z0 * y))) by (apply weighted_sq; lra).
      assert (((x0 * x0 + y0 * y0) * e2 + z0 * z0 * p2) * oo - po * po = 
        e2 * e2 * ((x0 * y - y0 * x) * (x0 * y - y0 * x)) + e2 * p2 * ((x0 * z - z0 * x) * (x0 * z - z0 * x)) + e2 * p2 * ((y0 * z - z0 * y) * (y0 * z - z0 * y)))
        by (unfold oo, po; ring). rewrite On in H1. lra. }
    unfold m in H. lra. }
  assert (Root : forall k, on_spheroid eq pol (along [x; y; z] d k) <-> k = / t \/ k = (oo - 1) / (m * t)).
  { intros k. rewrite on_qform. specialize (G k). fold m in G. split.
    - intros E. rewrite E in G. assert (G0 : (1 - k * t) * (oo - 1 - k * t * m) = 0) by lra.
      apply Rmult_integral in G0 as [G0|G0].
      + left. apply Rmult_eq_reg_r with t; [|lra]. rewrite Rinv_l by lra. lra.
      + right. apply Rmult_eq_reg_r with (m * t); [|assert (0 < m * t) by (now apply Rmult_lt_0_compat); lra].
        unfold Rdiv. rewrite Rmult_assoc, Rinv_l by (assert (0 < m * t) by (now apply Rmult_lt_0_compat); lra). lra.
    - intros E. assert (Z : (1 - k * t) * (oo - 1 - k * t * m) = 0); [|lra].
      destruct E as [->| ->]; [rewrite Rinv_l by lra; ring|].
      replace ((oo - 1) / (m * t) * t * m) with (oo - 1) by (field; split; lra). ring. }
  assert (Order : / t < (oo - 1) / (m * t)).
  { apply Rmult_lt_reg_r with (m * t); [now apply Rmult_lt_0_compat|].
    replace (/ t * (m * t)) with m by (field; lra). unfold Rdiv.
    rewrite Rmult_assoc, Rinv_l by (assert (0 < m * t) by (now apply Rmult_lt_0_compat); lra). unfold m. lra. }
  assert (It : 0 < / t) by (now apply Rinv_0_lt_compat).
  destruct (proj2 (found_iff eq pol (proj1 Hr) (proj2 Hr) [x; y; z] d Out)) as (la & lo & E).
  { exists (/ t), ((oo - 1) / (m * t)). rewrite !Root. repeat split; auto; lra. }
  destruct (found_nearest eq pol (proj1 Hr) (proj2 Hr) [x; y; z] d la lo Out E) as (k & l & Pk & -> & Onk & Ck & Min).
  assert (k <= / t) by (apply Min, Root; auto).
  apply Root in Onk as [->| ->]; [|lra].
  exists l, lo. split; [exact E|].
  assert (A : along [x; y; z] d (/ t) = [x0; y0; z0]).
  { unfold along, vget. rewrite Dd. cbn [nth]. elements; field; lra. }
  rewrite A in Ck. exact Ck.
Qed.

(** *** Angles *)

Lemma same_sincos a b : sin a = sin b -> cos a = cos b -> same_angle a b.
Proof.
  intros S C. assert (D : cos (a - b) = 1) by (rewrite cos_minus, S, C; pose proof (trig1 b); lra).
  assert (H : sin ((a - b) / 2) = 0).
  { replace (a - b) with (2 * ((a - b) / 2)) in D by field. rewrite cos_2a_sin in D.
    assert (Q : sin ((a - b) / 2) * sin ((a - b) / 2) = 0) by lra. apply Rmult_integral in Q. tauto. }
  apply sin_eq_0_0 in H as (k & E). exists k. lra.
Qed.

Lemma coordinates_unique r phi l lat lon : 0 < r -> - (PI / 2) <= phi <= PI / 2 ->
  has_coordinates [r * cos phi * sin l; - (r * cos phi * cos l); r * sin phi] lat lon ->
  lat = phi /\ (cos phi <> 0 -> same_angle l lon).
Proof.
  intros Hr Hp (r' & Hr' & Hlat & Hlon & E). injection E as E0 E1 E2.
  assert (C1 : 0 <= cos phi) by (apply cos_ge_0; lra). assert (C2 : 0 <= cos lat) by (apply cos_ge_0; lra).
  assert (Er : r = r').
  { assert (Q : r * r = r' * r').
    { transitivity ((r * cos phi * sin l) * (r * cos phi * sin l) + (r * cos phi * cos l) * (r * cos phi * cos l) + (r * sin phi) * (r * sin phi)).
      - transitivity (r * r * (cos phi * cos phi * (sin l * sin l + cos l * cos l) + sin phi * sin phi)); [|ring].
        rewrite trig1. rewrite (trig2 phi). ring.
      - replace (r * cos phi * cos l) with (r' * cos lat * cos lon) by lra. rewrite E0, E2.
        transitivity (r' * r' * (cos lat * cos lat * (sin lon * sin lon + cos lon * cos lon) + sin lat * sin lat)); [ring|].
        rewrite trig1. rewrite (trig2 lat). ring. }
    nra. }
  subst r'.
  assert (Es : sin phi = sin lat) by (apply Rmult_eq_reg_l with r; lra).
  assert (El : lat = phi).
  { rewrite <- (asin_sin lat), <- (asin_sin phi) by lra. now rewrite Es. }
  split; [exact El|]. subst lat. intros N. assert (0 < r * cos phi) by nra.
  apply same_sincos; apply Rmult_eq_reg_l with (r * cos phi); lra.
Qed.

(** *** Rotations keep lengths *)

Lemma orthogonal_inner m u w : is_mat 3 3 m -> inner 3 (m3v m u) w = inner 3 u (m3v (transpose 3 3 m) w).
Proof.
  intros H. unfold inner, m3v. rewrite (sum_to_ext 3 (fun i => vget (mvmul 3 3 m u) i * vget w i)
    (fun i => sum_to 3 (fun n => mget m i n * vget u n * vget w i))).
  2:{ intros i Hi. rewrite mvmul_get by exact Hi. now rewrite sum_to_scale. }
  rewrite sum_to_swap. apply sum_to_ext. intros n Hn. rewrite mvmul_get by exact Hn.
  rewrite Rmult_comm, <- sum_to_scale. apply sum_to_ext. intros i Hi. rewrite transpose_get by assumption. ring.
Qed.

Lemma orthogonal_length m u : orthogonal m -> is_vec 3 u -> inner 3 (m3v m u) (m3v m u) = inner 3 u u.
Proof.
  intros O H. rewrite orthogonal_inner by (destruct O; assumption). now rewrite (proj2 (orthogonal_apply m u O H)).
Qed.

(** *** Round trip *)

Lemma surface_vec v lat lon : is_vec 3 (surface_point v lat lon).
Proof. reflexivity. Qed.
Lemma observer_vec v : is_vec 3 (observer v).
Proof. reflexivity. Qed.

Lemma latlon2pix_eq v lat lon : is_visible v lat lon = true -> v_range_b v = observer v ->
  v_correction v = null_correction ->
  let w := m3v (v_b2o v) (vsub (surface_point v lat lon) (observer v)) in
  vget w 1 <> 0 -> forall f, v_focal_length_pixels v = Num f ->
  latlon2pix v lat lon = Some (Num (vget w 0 / vget w 1 * f + v_OA_s v), Num (v_OA_l v - vget w 2 / vget w 1 * f)).
Proof.
  intros Vis Rb Hc. cbv zeta. intros N f Hf. unfold latlon2pix. rewrite Vis, Rb, Hc, Hf. cbn [negb].
  set (l := if v_prograde v then v_sub_lon v - lon else lon - v_sub_lon v).
  set (r := centric_radius (v_eq v) (v_pol v) lat).
  replace [r * cos lat * sin l; - r * cos lat * cos l; r * sin lat] with (surface_point v lat lon).
  2:{ unfold surface_point. fold l r. elements; ring. }
  set (w := m3v (v_b2o v) (vsub (surface_point v lat lon) (observer v))) in *.
  unfold nmul, ndiv. cbn [a_mul a_div ar_num num_div num2]. rewrite !Req_bool_false by exact N.
  cbn [num2 null_correction object_to_image]. reflexivity.
Qed.

Lemma orth_back v kpp n sc lc : aimed v kpp n sc lc ->
  m3v (v_b2o v) (v_range_b v) = [(v_OA_s v - sc) * kpp; - n; (lc - v_OA_l v) * kpp].
Proof.
  intros (_ & _ & _ & _ & _ & _ & _ & O & -> & _ & E). rewrite <- E. apply orthogonal_apply; [exact O|reflexivity].
Qed.

Lemma in_front v kpp n sc lc lat lon : aimed v kpp n sc lc -> v_eq v < n ->
  0 < vget (m3v (v_b2o v) (vsub (surface_point v lat lon) (observer v))) 1.
Proof.
  intros A L. pose proof (orth_back _ _ _ _ _ A) as B. destruct A as (Hr & Hk & Hn & _ & _ & _ & _ & O & Eb & Er & E).
  rewrite m3v_sub by reflexivity. rewrite <- Er, B.
  set (p := surface_point v lat lon). set (u := m3v (v_b2o v) p).
  assert (Lu : inner 3 u u = inner 3 p p).
  { unfold u. rewrite Eb. apply orthogonal_length; [now apply orthogonal_transpose|reflexivity]. }
  assert (Lp : inner 3 p p <= v_eq v * v_eq v).
  { unfold p, surface_point, inner, vget. cbn [sum_to nth]. set (r := centric_radius _ _ lat). set (l := if v_prograde v then _ else _).
    pose proof (radius_between (v_eq v) (v_pol v) (proj1 Hr) (proj2 Hr) lat) as Rb. fold r in Rb.
    apply Rle_trans with (r * r); [right|nra].
    transitivity (r * r * (cos lat * cos lat * (sin l * sin l + cos l * cos l) + sin lat * sin lat)); [ring|].
    rewrite trig1, (trig2 lat). ring. }
  unfold vsub. rewrite (map2_get Rminus _ _ 3) by (try apply m3v_vec; try reflexivity; lia).
  unfold vget at 2. cbn [nth]. unfold inner in Lu, Lp. cbn [sum_to] in Lu. fold (inner 3 p p) in Lp, Lu.
  assert (vget u 1 * vget u 1 <= v_eq v * v_eq v).
  { unfold inner in Lu. cbn [sum_to] in Lu. unfold inner in Lp. cbn [sum_to] in Lp.
    assert (0 <= vget u 0 * vget u 0) by apply Rle_0_sqr. assert (0 <= vget u 2 * vget u 2) by apply Rle_0_sqr. lra. }
  assert (- v_eq v <= vget u 1) by nra. lra.
Qed.

Lemma visible_mu v lat lon m : v_mu_limit v = Num m -> is_visible v lat lon = true ->
  m < mu (v_eq v) (v_pol v) (v_sub_lat v) (v_sub_lon v) lat lon (v_range v).
Proof.
  intros E H. unfold is_visible in H. apply andb_prop in H as [H _]. rewrite E in H.
  unfold nlt in H. cbn [a_lt ar_num num_lt] in H. now destruct (Rlt_bool_spec m (mu (v_eq v) (v_pol v) (v_sub_lat v) (v_sub_lon v) lat lon (v_range v))).
Qed.

Lemma roundtrip v kpp n sc lc lat lon m : aimed v kpp n sc lc -> v_correction v = null_correction ->
  - (PI / 2) <= lat <= PI / 2 -> v_mu_limit v = Num m -> 0 <= m -> is_visible v lat lon = true ->
  0 < vget (m3v (v_b2o v) (vsub (surface_point v lat lon) (observer v))) 1 ->
  exists x z lon', latlon2pix v lat lon = Some (Num x, Num z) /\ pix2latlon v x z = Ok (Some (Num lat, lon')) /\
    (cos lat <> 0 -> same_angle lon' (if v_prograde v then lon else lon - 2 * v_sub_lon v)).
Proof.
  intros A Hc Hlat Em Hm Vis W. pose proof (orth_back _ _ _ _ _ A) as B.
  destruct A as (Hr & Hk & Hn & Ek & Esc & Elc & Ef & O & Eb & Er & E).
  set (p := surface_point v lat lon) in *. set (o := observer v) in *.
  set (w := m3v (v_b2o v) (vsub p o)) in *.
  set (w0 := vget w 0) in *. set (w1 := vget w 1) in *. set (w2 := vget w 2) in *.
  assert (Vw : is_vec 3 w) by apply m3v_vec.
  assert (Ew : w = [w0; w1; w2]) by (unfold is_vec in Vw; unfold w0, w1, w2; clearbody w; vec3 w Vw; reflexivity).
  exists (w0 / w1 * (n / kpp) + v_OA_s v), (v_OA_l v - w2 / w1 * (n / kpp)).
  assert (Back : m3v (v_o2b v) w = vsub p o).
  { unfold w. rewrite Eb. apply orthogonal_apply; [exact O|reflexivity]. }
  assert (V : 1 < qform (v_eq v) (v_pol v) p o).
  { apply mu_positive_form; [exact Hr|exact Hlat|]. pose proof (visible_mu v lat lon m Em Vis). lra. }
  destruct (first_hit (v_eq v) (v_pol v) o p (n / w1)) as (la & lo & Hit & Co); try assumption; try reflexivity.
  { apply Rdiv_lt_0_compat; lra. }
  { apply surface_on; exact Hr. }
  unfold p, surface_point in Co. set (l := if v_prograde v then v_sub_lon v - lon else lon - v_sub_lon v) in *.
  apply coordinates_unique in Co as [-> Ang]; [|apply radius_pos; tauto|exact Hlat].
  exists (if v_prograde v then v_sub_lon v - lo else lo - v_sub_lon v).
  split; [|split].
  - apply latlon2pix_eq; [exact Vis|exact Er|exact Hc| |exact Ef]. fold p o w w1. lra.
  - unfold pix2latlon. rewrite Esc, Elc, Ek, Hc. cbn [null_correction image_to_object].
    rewrite <- m3v_scale by reflexivity. rewrite <- E at 2.
    rewrite <- m3v_sub by reflexivity.
    replace (vsub _ _) with (vscale w (n / w1)).
    2:{ rewrite Ew. unfold vsub, vscale, map2. cbn [combine map fst snd]. elements; field; repeat split; lra. }
    rewrite m3v_scale by exact Vw. rewrite Back, Er. fold o. rewrite Hit. reflexivity.
  - intros N. destruct (Ang N) as (k & Ek'). unfold l in Ek'. destruct (v_prograde v).
    + exists k. lra.
    + exists (- k)%Z. rewrite opp_IZR. lra.
Qed.
