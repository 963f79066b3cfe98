(** Contents of the orthographic grid over the reals (C87). *)
From Coq Require Import List ZArith Reals Lra Lia Bool Psatz.
From Flocq Require Import Core BinarySingleNaN.
From Verif Require Import Base BaseFacts Flt FltFacts Num LinAlg_Model Maths_Model Maths_Spec Maths_Proofs
  Spheroid_Model Spheroid_Spec Spheroid_Proofs Proj_Model Proj_Spec Proj_Proofs ProjGrid_Proofs ProjGridR_Proofs
  Ortho_Model Ortho_Spec Ortho_Proofs OrthoVis_Proofs OrthoGrid_Proofs.
Import ListNotations.
Open Scope R_scope.

Section Content.
Variables (low : R) (pro : bool) (eq pol : R).
Hypothesis Hpol : 0 < pol.
Hypothesis Hle : pol <= eq.
Variables (phi lam pa k sc lc : R) (samples lines : Z).
Hypothesis Hphi : Rabs phi <= PI / 2 - 1 / 60000000000000.
Hypothesis Hlam : 0 <= lam <= 2 * PI.
Hypothesis Hk : 0 < k.
Hypothesis Hmap : map_size samples lines.
Hypothesis Hsc : Rabs sc + eq / k < 2 ^ 62.
Hypothesis Hlc : Rabs lc + eq / k < 2 ^ 62.
Variables (pk ps pl pla plo : num) (polar : bool).
Local Notation L := (libm_num PI low).
Local Notation K := ((eq / pol) * (eq / pol)).
Local Notation p := (@Ortho ar_num (Num phi) (Num lam) (Num pa) pk ps pl pla plo polar).
Local Notation radius := (num1 (fun r => Num (centric_radius eq pol r)) : ar_num -> ar_num).

(** The surface point at [lat], [lon] (radians) and its image. *)
Definition point (lat lon : R) : vector := spherical (centric_radius eq pol lat) lat (east pro lon).
Definition right (lat lon : R) : R := inner 3 (point lat lon) (rightward pro lam).
Definition up (lat lon : R) : R := inner 3 (point lat lon) (northward pro phi lam).
Definition px (lat lon : R) : R := right lat lon * cos pa - up lat lon * sin pa.
Definition pz (lat lon : R) : R := right lat lon * sin pa + up lat lon * cos pa.

Lemma image_bound lat lon : Rabs (px lat lon) <= eq /\ Rabs (pz lat lon) <= eq.
Proof.
  pose proof (radius_between eq pol Hpol Hle lat) as RB.
  set (r := centric_radius eq pol lat) in *.
  set (d := east pro lon - east pro lam).
  assert (Er : right lat lon = r * (cos lat * sin d)).
  { unfold right, point, inner, rightward, spherical, vget, d. cbn [sum_to nth]. fold r. rewrite sin_minus. ring. }
  assert (Eu : up lat lon = r * (cos phi * sin lat - sin phi * (cos lat * cos d))).
  { unfold up, point, inner, northward, spherical, vget, d. cbn [sum_to nth]. fold r. rewrite cos_minus. ring. }
  assert (B : right lat lon * right lat lon + up lat lon * up lat lon <= r * r).
  { rewrite Er, Eu. pose proof (sc1 phi) as T1. pose proof (sc1 lat) as T2. pose proof (sc1 d) as T3.
    set (a := cos lat * cos d). set (b := cos lat * sin d).
    assert (T4 : sin lat * sin lat + a * a + b * b = 1).
    { transitivity (sin lat * sin lat + cos lat * cos lat * (sin d * sin d + cos d * cos d)); [unfold a, b; ring|]. rewrite T3. lra. }
    assert (Id : (cos phi * sin lat - sin phi * a) * (cos phi * sin lat - sin phi * a) + (sin phi * sin lat + cos phi * a) * (sin phi * sin lat + cos phi * a)
       = (sin lat * sin lat + a * a) * (sin phi * sin phi + cos phi * cos phi)) by ring.
    rewrite T1, Rmult_1_r in Id.
    assert (0 <= (sin phi * sin lat + cos phi * a) * (sin phi * sin lat + cos phi * a)) by apply Rle_0_sqr.
    assert (b * b + (cos phi * sin lat - sin phi * a) * (cos phi * sin lat - sin phi * a) <= 1) by lra.
    replace (r * b * (r * b) + r * (cos phi * sin lat - sin phi * a) * (r * (cos phi * sin lat - sin phi * a)))
      with (r * r * (b * b + (cos phi * sin lat - sin phi * a) * (cos phi * sin lat - sin phi * a))) by ring.
    assert (0 <= r * r) by apply Rle_0_sqr. nra. }
  assert (S : px lat lon * px lat lon + pz lat lon * pz lat lon = right lat lon * right lat lon + up lat lon * up lat lon).
  { unfold px, pz. transitivity ((right lat lon * right lat lon + up lat lon * up lat lon) * (sin pa * sin pa + cos pa * cos pa)); [ring|].
    rewrite sc1. ring. }
  assert (r * r <= eq * eq) by nra.
  assert (Q : forall v, v * v <= eq * eq -> Rabs v <= eq).
  { intros v Hv. apply Rabs_le. assert (0 < eq) by lra. split; nra. }
  pose proof (Rle_0_sqr (px lat lon)) as U1. pose proof (Rle_0_sqr (pz lat lon)) as U2. unfold Rsqr in *.
  split; apply Q; lra.
Qed.

(** The cell of an image position. *)
Definition cell (x z : R) : option Z :=
  let i := ZnearestA (sc + x / k) in let j := ZnearestA (lc + z / k) in
  if ((0 <=? i) && (i <? samples) && (0 <=? j) && (j <? lines))%Z then Some (j * samples + i)%Z else None.

Lemma ssize_ok r : Rabs r < 2 ^ 62 -> num_ssize (Num (IZR (ZnearestA r)) : ar_num) = Ok (ZnearestA r).
Proof.
  intros H. unfold num_ssize. rewrite Ztrunc_IZR. pose proof (Znearest_half (Zle_bool 0) r) as N.
  apply Rabs_def2 in H. apply Rabs_le_inv in N.
  assert (B : - (2 ^ 62) - 1 < IZR (ZnearestA r) < 2 ^ 62 + 1) by lra.
  replace (2 ^ 62) with (IZR (2 ^ 62)) in B by (change (2 ^ 62)%Z with 4611686018427387904%Z; cbn [pow]; lra).
  rewrite <- opp_IZR in B. destruct B as [B1 B2]. rewrite <- minus_IZR in B1. apply lt_IZR in B1.
  change 1 with (IZR 1) in B2. rewrite <- plus_IZR in B2. apply lt_IZR in B2.
  destruct (Z.leb_spec (- 2 ^ 63) (ZnearestA r)); [|lia]. destruct (Z.ltb_spec (ZnearestA r) (2 ^ 63)); [reflexivity|lia].
Qed.

Lemma position_ok c x : Rabs c + eq / k < 2 ^ 62 -> Rabs x <= eq -> Rabs (c + x / k) < 2 ^ 62.
Proof.
  intros H Hx. eapply Rle_lt_trans; [apply Rabs_triang|]. eapply Rle_lt_trans; [|exact H].
  apply Rplus_le_compat_l. unfold Rdiv. rewrite Rabs_mult, (Rabs_pos_eq (/ k)) by (left; now apply Rinv_0_lt_compat).
  apply Rmult_le_compat_r; [left; now apply Rinv_0_lt_compat|exact Hx].
Qed.

(** Drawing with the angle belonging to longitude [m]. *)
Lemma dot_spec nn m g :
  ortho_dot (A := ar_num) L num_ssize radius p samples lines (Num k : ar_num) (Num sc : ar_num) (Num lc : ar_num) (Num nn : ar_num)
    (Num (if pro then lam + PI - m else m - (PI + lam)) : ar_num) g =
  match cell (px nn m) (pz nn m) with Some q => put g q | None => Ok g end.
Proof.
  unfold ortho_dot. cbn [o_pa o_lat]. nums. unfold neg. nums. rewrite !num_divide by lra. nums.
  rewrite !Rminus_0_l, !cos_neg, !sin_neg. unfold num_round. nums.
  set (r := centric_radius eq pol nn). set (mm := if pro then lam + PI - m else m - (PI + lam)).
  set (d := east pro m - east pro lam).
  assert (M : sin mm = - sin d /\ cos mm = - cos d).
  { unfold mm, d, east. destruct pro.
    - replace (lam + PI - m) with ((- m - - lam) + PI) by ring.
      rewrite neg_sin, neg_cos. split; reflexivity.
    - replace (m - (PI + lam)) with ((m - lam) - PI) by ring. generalize (m - lam). intros t.
      rewrite sin_minus, cos_minus, sin_PI, cos_PI. split; ring. }
  destruct M as [-> ->].
  assert (Ex : px nn m = (r * cos nn * sin d) * cos pa - (cos phi * (r * sin nn) - sin phi * (r * cos nn * cos d)) * sin pa).
  { unfold px, right, up, point, inner, rightward, northward, spherical, vget, d. cbn [sum_to nth]. fold r. rewrite sin_minus, cos_minus. ring. }
  assert (Ez : pz nn m = (r * cos nn * sin d) * sin pa + (cos phi * (r * sin nn) - sin phi * (r * cos nn * cos d)) * cos pa).
  { unfold pz, right, up, point, inner, rightward, northward, spherical, vget, d. cbn [sum_to nth]. fold r. rewrite sin_minus, cos_minus. ring. }
  destruct (image_bound nn m) as [Bx Bz].
  match goal with |- bind (num_ssize (Num (IZR (ZnearestA ?a)))) _ = _ => replace a with (sc + px nn m / k) by (rewrite Ex; field; lra) end.
  rewrite ssize_ok by (apply position_ok; assumption). cbn [bind].
  match goal with |- bind (num_ssize (Num (IZR (ZnearestA ?a)))) _ = _ => replace a with (lc + pz nn m / k) by (rewrite Ez; field; lra) end.
  rewrite ssize_ok by (apply position_ok; assumption). cbn [bind].
  unfold cell. cbv zeta. set (i := ZnearestA _). set (j := ZnearestA _).
  destruct (Z.leb_spec 0 i); [|reflexivity]. destruct (Z.ltb_spec i samples); [|reflexivity].
  destruct (Z.leb_spec 0 j); [|reflexivity]. destruct (Z.ltb_spec j lines); [|reflexivity]. cbn [andb].
  destruct Hmap as (S0 & L0 & Hn). change (2 ^ 64)%Z with size_mod in Hn.
  rewrite (wrap_id (j * samples)) by nia. rewrite wrap_id by nia. reflexivity.
Qed.

(** The points that are drawn. *)
Definition height (nn m : R) : R := cos (lam - m) + K * tan nn * tan phi.
Definition vis (nn m : R) : bool := Rlt_bool (Rabs nn) (PI / 2) && Rle_bool 0 (height nn m).

Lemma phi_inside : - (PI / 2) < phi < PI / 2.
Proof. apply Rabs_le_inv in Hphi. lra. Qed.

Lemma bounds_spec nn m : Rabs nn <= PI / 2 -> 0 <= m <= 2 * PI ->
  match longitude_bounds (A := ar_num) L num_acos (Num eq : ar_num) (Num pol : ar_num) p (Num nn : ar_num) with
  | None => vis nn m = false
  | Some (lo, hi) =>
      (vis nn m = false /\ drawn_longitude (A := ar_num) L lo hi (Num m : ar_num) = None) \/
      (vis nn m = true /\ exists z, drawn_longitude (A := ar_num) L lo hi (Num m : ar_num) = Some (Num (m + 2 * PI * IZR z) : ar_num))
  end.
Proof.
  intros Hn Hm. pose proof PI_RGT_0 as Ppi. pose proof phi_inside as Pin.
  assert (Cp : cos phi <> 0) by (apply Rgt_not_eq, cos_gt_0; lra).
  unfold longitude_bounds. cbn [o_lat o_lon]. nums. rewrite !num_divide by lra. nums.
  rewrite (Req_bool_false (cos phi) 0 Cp). unfold vis.
  destruct (Rlt_bool_spec (Rabs nn) (PI / 2)) as [In|Out].
  2:{ assert (Cn : cos nn = 0).
      { assert (E : Rabs nn = PI / 2) by lra. unfold Rabs in E. destruct (Rcase_abs nn).
        - rewrite <- cos_neg, E. apply cos_PI2.
        - rewrite E. apply cos_PI2. }
      rewrite (Req_bool_true (cos nn) 0 Cn). unfold a_le. nums. cbn [negb andb]. reflexivity. }
  cbn [andb]. apply Rabs_def2 in In. assert (Cn : cos nn <> 0) by (apply Rgt_not_eq, cos_gt_0; lra).
  rewrite (Req_bool_false (cos nn) 0 Cn). nums.
  replace (eq * eq / pol / pol * tan nn * tan phi) with (K * tan nn * tan phi) by (field; lra).
  unfold height. set (q := K * tan nn * tan phi). unfold a_le. nums. cbn [negb andb].
  pose proof (COS_bound (lam - m)) as Bc.
  destruct (Rlt_bool_spec q (-1)) as [Q1|Q1]; cbn [negb andb].
  { rewrite (Rlt_bool_false 1 q) by lra. apply Rle_bool_false. lra. }
  destruct (Rlt_bool_spec 1 q) as [Q2|Q2]; cbn [negb andb].
  { unfold neg, drawn_longitude, a_le. nums. rewrite Rminus_0_l. right. rewrite Rle_bool_true by lra. split; [reflexivity|].
    rewrite (Rlt_bool_false m (- PI)) by lra. destruct (Rlt_bool_spec PI m); nums; cbn [negb andb].
    - exists (-1)%Z. rewrite (Rlt_bool_false _ (- PI)), (Rlt_bool_false PI) by lra. cbn [negb andb]. apply (f_equal (fun r => Some (Num r : ar_num))). lra.
    - exists 0%Z. rewrite (Rlt_bool_false _ (- PI)), (Rlt_bool_false PI) by lra. cbn [negb andb]. apply (f_equal (fun r => Some (Num r : ar_num))). lra. }
  unfold num_acos, neg. nums. rewrite Rminus_0_l, (Rle_bool_true (-1)), (Rle_bool_true (- q) 1) by lra. cbn [andb num_abs].
  pose proof (acos_bound (- q)) as Bw. rewrite Rabs_pos_eq by lra. set (w := acos (- q)) in *.
  assert (Cw : cos w = - q) by (apply cos_acos; lra). nums.
  pose proof (corrected_in lam w m Bw Hlam Hm) as CI. rewrite Cw in CI.
  unfold drawn_longitude. nums.
  assert (Cor : (if Rlt_bool m (lam - w) then Num (m + 2 * PI) else if Rlt_bool (lam + w) m then Num (m - 2 * PI) else Num m)
    = Num (corrected (lam - w) (lam + w) m)).
  { unfold corrected. destruct (Rlt_bool m (lam - w)); [reflexivity|]. destruct (Rlt_bool (lam + w) m); reflexivity. }
  assert (Sh : exists z, corrected (lam - w) (lam + w) m = m + 2 * PI * IZR z).
  { unfold corrected. destruct (Rlt_bool m (lam - w)); [exists 1%Z; lra|]. destruct (Rlt_bool (lam + w) m); [exists (-1)%Z; lra|exists 0%Z; lra]. }
  rewrite Cor. unfold a_le. nums. cbn [negb andb]. destruct Sh as [z Sh]. set (v := corrected (lam - w) (lam + w) m) in *.
  destruct (Rlt_bool_spec v (lam - w)); cbn [negb andb].
  - left. split; [|reflexivity]. apply Rle_bool_false. destruct (Rlt_le_dec (cos (lam - m) + q) 0); [assumption|].
    assert (lam - w <= v <= lam + w) by (apply CI; lra). lra.
  - destruct (Rlt_bool_spec (lam + w) v); cbn [negb andb].
    + left. split; [|reflexivity]. apply Rle_bool_false. destruct (Rlt_le_dec (cos (lam - m) + q) 0); [assumption|].
      assert (lam - w <= v <= lam + w) by (apply CI; lra). lra.
    + right. split; [|exists z; now rewrite Sh]. apply Rle_bool_true. assert (- q <= cos (lam - m)) by (apply CI; lra). lra.
Qed.

Lemma point_period lat lon z : point lat (lon + 2 * PI * IZR z) = point lat lon.
Proof. unfold point. apply shifted. Qed.
Lemma px_period lat lon z : px lat (lon + 2 * PI * IZR z) = px lat lon /\ pz lat (lon + 2 * PI * IZR z) = pz lat lon.
Proof. unfold px, pz, right, up. rewrite point_period. split; reflexivity. Qed.

(** Where a point of a latitude line is drawn: retrograde bodies shifted by twice
    the longitude of the observer. *)
Definition place (m : R) : R := if pro then m else m + 2 * lam.

Local Notation nseg := (IZR 2000).
Definition lat_at (iv : R) (j : Z) : R := (-90 + IZR j * iv) * (PI / 180).
Definition lon_step (m : Z) : R := IZR m / 2000 * (PI / 180) * 360.
Definition lat_set (iv : R) (j q : Z) : Prop := exists m, (0 <= m < 2000)%Z /\
  vis (lat_at iv j) (lon_step m) = true /\ cell (px (lat_at iv j) (place (lon_step m))) (pz (lat_at iv j) (place (lon_step m))) = Some q.

Lemma cell_length x z q (g : list Z) : Z.of_nat (length g) = (samples * lines)%Z -> cell x z = Some q -> (0 <= q < Z.of_nat (length g))%Z.
Proof.
  intros Hg. unfold cell. cbv zeta. set (i := ZnearestA _). set (j := ZnearestA _).
  destruct (Z.leb_spec 0 i); [|discriminate]. destruct (Z.ltb_spec i samples); [|discriminate].
  destruct (Z.leb_spec 0 j); [|discriminate]. destruct (Z.ltb_spec j lines); [|discriminate]. cbn [andb]. intros [= <-].
  rewrite Hg. nia.
Qed.

Lemma put_cell x z g : Z.of_nat (length g) = (samples * lines)%Z ->
  exists g', match cell x z with Some q => put g q | None => Ok g end = Ok g' /\ painted g g' (fun q => cell x z = Some q).
Proof.
  intros Hg. destruct (cell x z) as [q|] eqn:E.
  - destruct (put_painted g q) as (g' & E' & P); [eapply cell_length; eauto|]. exists g'. split; [exact E'|].
    eapply painted_ext; [exact P|]. intros q' _. split; [intros ->; reflexivity|intros [= ->]; reflexivity].
  - exists g. split; [reflexivity|]. apply painted_none. intros q _ H. discriminate H.
Qed.

Lemma opt_dec (o : option Z) q : {o = Some q} + {o <> Some q}.
Proof. repeat decide equality. Qed.

Lemma lon_step_bound m : (0 <= m < 2000)%Z -> 0 <= lon_step m <= 2 * PI.
Proof.
  intros [H0 H1]. apply IZR_le in H0. apply IZR_lt in H1. pose proof PI_RGT_0. unfold lon_step.
  replace (IZR m / 2000 * (PI / 180) * 360) with (IZR m * (PI / 1000)) by field.
  split; [nra|]. replace (2 * PI) with (2000 * (PI / 1000)) by field. nra.
Qed.

Lemma lat_line_spec n g : Rabs n <= 90 -> Z.of_nat (length g) = (samples * lines)%Z ->
  exists g', lat_line (A := ar_num) L num_acos num_ssize pro (Num eq : ar_num) (Num pol : ar_num) radius p samples lines
      (Num k : ar_num) (Num sc : ar_num) (Num lc : ar_num) (Num n : ar_num) g = Ok g' /\
    painted g g' (fun q => exists m, (0 <= m < 2000)%Z /\ vis (n * (PI / 180)) (lon_step m) = true /\
       cell (px (n * (PI / 180)) (place (lon_step m))) (pz (n * (PI / 180)) (place (lon_step m))) = Some q).
Proof.
  intros Hn Hg. pose proof PI_RGT_0 as Ppi. pose proof (Rabs_le_inv _ _ Hn) as Hn'.
  assert (Bn : Rabs (n * (PI / 180)) <= PI / 2) by (apply Rabs_le; split; nra).
  unfold lat_line. cbn [o_lat o_lon]. nums.
  assert (Np : almost_equal (A := ar_num) (l_eps L) (l_tiny L) (Num (Rabs phi) : ar_num) (Num (PI / 2) : ar_num) 8 = false).
  { apply not_true_is_false. intros H. change (l_eps L) with eps_num in H. change (l_tiny L) with tiny_num in H.
    apply almost_equal_spec_R in H.
    assert (E1 : bpow radix2 (-52) < 1 / 4000000000000000).
    { cbn [bpow]. change (IZR (Z.pow_pos radix2 52)) with 4503599627370496. lra. }
    assert (E2 : bpow radix2 (-1022) <= bpow radix2 (-52)) by (apply bpow_le; lia).
    pose proof (Rabs_pos phi). pose proof PI_4 as P4.
    assert (E3 : Rabs (Rabs phi - PI / 2) = PI / 2 - Rabs phi) by (rewrite Rabs_left1; lra).
    assert (E4 : Rabs (Rabs phi + PI / 2) <= 4) by (rewrite Rabs_pos_eq; lra).
    rewrite E3 in H. pose proof (bpow_gt_0 radix2 (-52)). pose proof (Rabs_pos (Rabs phi + PI / 2)).
    destruct H as [H|H]; [|lra].
    assert (bpow radix2 (-52) * Rabs (Rabs phi + PI / 2) * 8 <= bpow radix2 (-52) * 4 * 8) by nra. lra. }
  rewrite Np, andb_false_r. nums.
  set (nn := n * (PI / 180)) in *.
  match goal with |- context [longitude_bounds ?a ?b ?c ?d ?e ?f] => set (lb := longitude_bounds a b c d e f) end.
  assert (BS : forall m, 0 <= m <= 2 * PI -> match lb with
     | None => vis nn m = false
     | Some (lo, hi) =>
      (vis nn m = false /\ drawn_longitude (A := ar_num) L lo hi (Num m : ar_num) = None) \/
      (vis nn m = true /\ exists z, drawn_longitude (A := ar_num) L lo hi (Num m : ar_num) = Some (Num (m + 2 * PI * IZR z) : ar_num))
     end) by (intros m Hm; apply bounds_spec; assumption).
  clearbody lb. destruct lb as [[lo hi]|].
  2:{ exists g. split; [reflexivity|]. apply painted_none. intros q _ (m & Hm & Hv & _).
      rewrite (BS _ (lon_step_bound m Hm)) in Hv. discriminate. }
  apply (dots_paint _ (Z.to_nat 2000) (samples * lines)%Z
    (fun m q => vis nn (lon_step m) = true /\ cell (px nn (place (lon_step m))) (pz nn (place (lon_step m))) = Some q)); [| |exact Hg].
  - intros m q. destruct (vis nn (lon_step m)); [|right; intros [H _]; discriminate].
    destruct (opt_dec (cell (px nn (place (lon_step m))) (pz nn (place (lon_step m)))) q); [left|right]; tauto.
  - rewrite Z2Nat.id by lia. intros m g0 Hm Hg0. rewrite num_divide by lra. nums. fold (lon_step m).
    destruct (BS _ (lon_step_bound m Hm)) as [[Hv ->]|[Hv [z ->]]].
    + exists g0. split; [reflexivity|]. apply painted_none. intros q _ [H _]. congruence.
    + cbn [o_lon]. nums.
      assert (Q : (if pro then (Num (lam + PI - (lon_step m + 2 * PI * IZR z)) : ar_num) else (Num (lon_step m + 2 * PI * IZR z - (PI - lam)) : ar_num))
        = Num (if pro then lam + PI - (place (lon_step m) + 2 * PI * IZR z) else place (lon_step m) + 2 * PI * IZR z - (PI + lam))).
      { unfold place. destruct pro; f_equal; ring. }
      match goal with |- context [ortho_dot _ _ _ _ _ _ _ _ _ _ ?a _] => replace a with (Num (if pro then lam + PI - (place (lon_step m) + 2 * PI * IZR z) else place (lon_step m) + 2 * PI * IZR z - (PI + lam)) : ar_num) by (symmetry; exact Q) end.
      rewrite dot_spec. destruct (px_period nn (place (lon_step m)) z) as [-> ->].
      destruct (put_cell (px nn (place (lon_step m))) (pz nn (place (lon_step m))) g0 Hg0) as (g' & E & P).
      exists g'. split; [exact E|]. eapply painted_ext; [exact P|]. intros q _. tauto.
Qed.

Definition lat_step (n : Z) : R := (IZR n / 1000 * 180 - 90) * (PI / 180).
Lemma lon_line_spec m g : 0 <= m <= 360 -> Z.of_nat (length g) = (samples * lines)%Z ->
  exists g', lon_line (A := ar_num) L num_acos num_ssize pro (Num eq : ar_num) (Num pol : ar_num) radius p samples lines
      (Num k : ar_num) (Num sc : ar_num) (Num lc : ar_num) (Num m : ar_num) g = Ok g' /\
    painted g g' (fun q => exists n, (0 <= n < 1000)%Z /\ vis (lat_step n) (m * (PI / 180)) = true /\
       cell (px (lat_step n) (m * (PI / 180))) (pz (lat_step n) (m * (PI / 180))) = Some q).
Proof.
  intros Hm Hg. pose proof PI_RGT_0 as Ppi. unfold lon_line. cbn [o_lat o_lon].
  set (mm := m * (PI / 180)). assert (Bm : 0 <= mm <= 2 * PI) by (unfold mm; split; nra).
  apply (dots_paint _ (Z.to_nat 1000) (samples * lines)%Z
    (fun n q => vis (lat_step n) mm = true /\ cell (px (lat_step n) mm) (pz (lat_step n) mm) = Some q)); [| |exact Hg].
  - intros n q. destruct (vis (lat_step n) mm); [|right; intros [H _]; discriminate].
    destruct (opt_dec (cell (px (lat_step n) mm) (pz (lat_step n) mm)) q); [left|right]; tauto.
  - rewrite Z2Nat.id by lia. intros n g0 Hn Hg0. nums. rewrite num_divide by lra. nums. fold (lat_step n). fold mm.
    assert (Bn : Rabs (lat_step n) <= PI / 2).
    { destruct Hn as [H0 H1]. apply IZR_le in H0. apply IZR_lt in H1. unfold lat_step.
      assert (-90 <= IZR n / 1000 * 180 - 90 <= 90) by lra. apply Rabs_le. split; nra. }
    match goal with |- context [longitude_bounds ?a ?b ?c ?d ?e ?f] => set (lb := longitude_bounds a b c d e f) end.
    assert (BS : match lb with
     | None => vis (lat_step n) mm = false
     | Some (lo, hi) =>
      (vis (lat_step n) mm = false /\ drawn_longitude (A := ar_num) L lo hi (Num mm : ar_num) = None) \/
      (vis (lat_step n) mm = true /\ exists z, drawn_longitude (A := ar_num) L lo hi (Num mm : ar_num) = Some (Num (mm + 2 * PI * IZR z) : ar_num))
     end) by (apply bounds_spec; assumption).
    clearbody lb. destruct lb as [[lo hi]|].
    2:{ exists g0. split; [reflexivity|]. apply painted_none. intros q _ [H _]. congruence. }
    destruct BS as [[Hv ->]|[Hv [z ->]]].
    + exists g0. split; [reflexivity|]. apply painted_none. intros q _ [H _]. congruence.
    + nums.
      assert (Q : (if pro then (Num (lam + PI - (mm + 2 * PI * IZR z)) : ar_num) else (Num (mm + 2 * PI * IZR z - (PI + lam)) : ar_num))
        = Num (if pro then lam + PI - (mm + 2 * PI * IZR z) else mm + 2 * PI * IZR z - (PI + lam))).
      { destruct pro; reflexivity. }
      match goal with |- context [ortho_dot _ _ _ _ _ _ _ _ _ _ ?a _] => replace a with (Num (if pro then lam + PI - (mm + 2 * PI * IZR z) else mm + 2 * PI * IZR z - (PI + lam)) : ar_num) by (symmetry; exact Q) end.
      rewrite dot_spec. destruct (px_period (lat_step n) mm z) as [-> ->].
      destruct (put_cell (px (lat_step n) mm) (pz (lat_step n) mm) g0 Hg0) as (g' & E & P).
      exists g'. split; [exact E|]. eapply painted_ext; [exact P|]. intros q _. tauto.
Qed.

(** ** The specification in terms of cells *)
Lemma surface_point_unique lat lon P : surface_point eq pol pro lat lon P -> P = point (radians lat) (radians lon).
Proof.
  intros (V & O & (r & Hr & ->)). unfold point. f_equal. apply (radius_unique eq pol Hpol Hle r (radians lat) (east pro (radians lon)) Hr O).
Qed.
Lemma surface_point_is lat lon : surface_point eq pol pro lat lon (point (radians lat) (radians lon)).
Proof.
  split; [reflexivity|]. split; [apply radius_on; assumption|].
  exists (centric_radius eq pol (radians lat)). split; [apply radius_pos; assumption|reflexivity].
Qed.

Lemma radians_inside n : Rabs n <= 90 -> (Rabs (radians n) < PI / 2 <-> Rabs n < 90).
Proof.
  intros _. pose proof PI_RGT_0. unfold radians. rewrite Rabs_mult, (Rabs_pos_eq (PI / 180)) by lra.
  split; intros X; nra.
Qed.

Lemma facing_vis n m : Rabs n < 90 -> (facing eq pol pro phi lam (point (radians n) (radians m)) <-> vis (radians n) (radians m) = true).
Proof.
  intros Hn. pose proof (proj2 (radians_inside n (Rlt_le _ _ Hn)) Hn) as B. pose proof phi_inside as Pin.
  rewrite (facing_iff pro eq pol Hpol Hle phi lam (radians n) (radians m)); [|exact Pin|apply Rabs_def2 in B; lra|].
  - unfold vis, height. rewrite (Rlt_bool_true _ _ B). cbn [andb].
    destruct (Rle_bool_spec 0 (cos (lam - radians m) + K * tan (radians n) * tan phi)); split; intros; try reflexivity; try assumption; [exfalso; lra|discriminate].
  - destruct (surface_point_is n m) as (_ & _ & H). exact H.
Qed.

Lemma shown_cell lat lon j i : (0 <= j < lines)%Z -> (0 <= i < samples)%Z ->
  (shown pro phi lam pa k sc lc (point lat lon) j i <-> cell (px lat lon) (pz lat lon) = Some (j * samples + i)%Z).
Proof.
  intros Hj Hi. unfold cell. cbv zeta. split.
  - intros (x & z & (-> & ->) & Ni & Nj). apply nearest_spec in Ni, Nj. destruct Ni as [Ni _]. destruct Nj as [Nj _].
    fold (right lat lon) in *. fold (up lat lon) in *. fold (px lat lon) in *. fold (pz lat lon) in *. rewrite Ni, Nj.
    destruct (Z.leb_spec 0 i); [|lia]. destruct (Z.ltb_spec i samples); [|lia].
    destruct (Z.leb_spec 0 j); [|lia]. destruct (Z.ltb_spec j lines); [|lia]. reflexivity.
  - set (i' := ZnearestA (sc + px lat lon / k)). set (j' := ZnearestA (lc + pz lat lon / k)).
    destruct (Z.leb_spec 0 i'); [|discriminate]. destruct (Z.ltb_spec i' samples); [|discriminate].
    destruct (Z.leb_spec 0 j'); [|discriminate]. destruct (Z.ltb_spec j' lines); [|discriminate]. cbn [andb]. intros [= E].
    assert (j' = j /\ i' = i) as [Ej Ei].
    { destruct (Z.lt_trichotomy j' j) as [T|[T|T]]; [exfalso; nia| |exfalso; nia]. split; [exact T|]. subst. lia. }
    exists (px lat lon), (pz lat lon). split; [split; reflexivity|]. split; apply nearest_spec; (split; [first [exact Ei|exact Ej]|lia]).
Qed.

Lemma marks_cell n m m' j i : Rabs n < 90 -> (0 <= j < lines)%Z -> (0 <= i < samples)%Z ->
  (marks_at eq pol pro phi lam pa k sc lc n m m' j i <->
   vis (radians n) (radians m) = true /\ cell (px (radians n) (radians m')) (pz (radians n) (radians m')) = Some (j * samples + i)%Z).
Proof.
  intros Hn Hj Hi. unfold marks_at. rewrite <- (facing_vis n m Hn), <- (shown_cell (radians n) (radians m') j i Hj Hi). split.
  - intros ((P & S & F) & (P' & S' & Sh)). apply surface_point_unique in S, S'. subst. auto.
  - intros [F Sh]. split; [exists (point (radians n) (radians m))|exists (point (radians n) (radians m'))]; (split; [apply surface_point_is|assumption]).
Qed.

Variable b : R.
Hypothesis Hb : same_direction lam (radians b).

Lemma place_degrees lat m : px lat (place (radians m)) = px lat (radians (if pro then m else m + 2 * b)) /\
  pz lat (place (radians m)) = pz lat (radians (if pro then m else m + 2 * b)).
Proof.
  assert (E : exists z, place (radians m) = radians (if pro then m else m + 2 * b) + 2 * PI * IZR z).
  { destruct Hb as [z Hz]. unfold place. destruct pro; [exists 0%Z; ring|exists (2 * z)%Z].
    rewrite mult_IZR, Hz. unfold radians. ring. }
  destruct E as [z ->]. apply px_period.
Qed.

Lemma Rle_test x y (B : bool) : (B = true <-> x <= y) -> a_le ar_num (Num x : ar_num) (Num y : ar_num) = B.
Proof.
  intros H. unfold a_le. nums. cbn [negb andb]. destruct (Rlt_bool_spec y x); cbn [negb]; destruct B; auto; exfalso.
  - destruct H as [H _]. specialize (H eq_refl). lra.
  - destruct H as [_ H]. specialize (H ltac:(assumption)). discriminate.
Qed.

Lemma floor_le z x : (z < Zfloor x + 1)%Z <-> IZR z <= x.
Proof.
  split; intros H.
  - assert (z <= Zfloor x)%Z by lia. apply IZR_le in H0. pose proof (Zfloor_lb x). lra.
  - apply Zfloor_lub in H. lia.
Qed.

Lemma div_le iv u v : 0 < iv -> (u <= v / iv <-> u * iv <= v).
Proof.
  intros H. split; intros X.
  - apply (Rmult_le_compat_r iv) in X; [|lra]. unfold Rdiv in X. rewrite Rmult_assoc, Rinv_l in X by lra. lra.
  - apply (Rmult_le_reg_r iv); [exact H|]. unfold Rdiv. rewrite Rmult_assoc, Rinv_l by lra. lra.
Qed.

Variables (iv jv : R).
Hypothesis Hiv : 0 < iv.
Hypothesis Hjv : 0 < jv.

Definition lat_marks (q : Z) : Prop := exists n m, latitude_line iv n /\ (0 <= m < 2000)%Z /\
  vis (n * (PI / 180)) (lon_step m) = true /\
  cell (px (n * (PI / 180)) (place (lon_step m))) (pz (n * (PI / 180)) (place (lon_step m))) = Some q.
Definition lon_marks (q : Z) : Prop := exists m n, longitude_line jv m /\ (0 <= n < 1000)%Z /\
  vis (lat_step n) (m * (PI / 180)) = true /\
  cell (px (lat_step n) (m * (PI / 180))) (pz (lat_step n) (m * (PI / 180))) = Some q.

(** Finite existence over a decidable predicate. *)
Lemma bounded_dec (S : Z -> Prop) : (forall j, {S j} + {~ S j}) -> forall N,
  {exists j, (0 <= j < Z.of_nat N)%Z /\ S j} + {~ exists j, (0 <= j < Z.of_nat N)%Z /\ S j}.
Proof.
  intros Dec. induction N as [|N IH]; [right; intros (j & H & _); lia|].
  destruct IH as [Y|Y]; [left; destruct Y as (j & H & Sj); exists j; split; [lia|exact Sj]|].
  destruct (Dec (Z.of_nat N)) as [D|D]; [left; exists (Z.of_nat N); split; [lia|exact D]|].
  right. intros (j & H & Sj). destruct (Z.eq_dec j (Z.of_nat N)) as [->|Ne]; [auto|]. apply Y. exists j. split; [lia|exact Sj].
Qed.

Lemma conj_dec (x : bool) (o : option Z) q : {x = true /\ o = Some q} + {~ (x = true /\ o = Some q)}.
Proof. destruct x; [|right; intros [H _]; discriminate]. destruct (opt_dec o q); [left|right]; tauto. Qed.

Lemma lat_loop g : Z.of_nat (length g) = (samples * lines)%Z ->
  exists g' n0, (forall fuel, (n0 <= fuel)%nat ->
    for_loop fuel (fun n : ar_num => a_le ar_num n (a_of_Z ar_num 90)) (fun n => a_add ar_num n (Num iv : ar_num))
      (lat_line (A := ar_num) L num_acos num_ssize pro (Num eq : ar_num) (Num pol : ar_num) radius p samples lines
        (Num k : ar_num) (Num sc : ar_num) (Num lc : ar_num)) (a_of_Z ar_num (-90)) g = Some (Ok g')) /\
    painted g g' lat_marks.
Proof.
  intros Hg. set (N := (Zfloor (180 / iv) + 1)%Z). set (v := fun j : Z => (Num (-90 + IZR j * iv) : ar_num)).
  assert (HN : (0 <= N)%Z).
  { assert (0 < N)%Z; [|lia]. apply floor_le. simpl. apply div_le; [exact Hiv|]. lra. }
  assert (HT : forall j, (j < N)%Z <-> -90 + IZR j * iv <= 90).
  { intros j. unfold N. rewrite floor_le, div_le by exact Hiv. split; intros; lra. }
  set (S := fun j q : Z => exists m, (0 <= m < 2000)%Z /\ (vis ((-90 + IZR j * iv) * (PI / 180)) (lon_step m) = true /\
       cell (px ((-90 + IZR j * iv) * (PI / 180)) (place (lon_step m))) (pz ((-90 + IZR j * iv) * (PI / 180)) (place (lon_step m))) = Some q)).
  destruct (for_loop_paint (fun n : ar_num => a_le ar_num n (Num 90 : ar_num)) (fun n => a_add ar_num n (Num iv : ar_num))
     (lat_line (A := ar_num) L num_acos num_ssize pro (Num eq : ar_num) (Num pol : ar_num) radius p samples lines
        (Num k : ar_num) (Num sc : ar_num) (Num lc : ar_num)) v N (samples * lines) S HN) with (fuel := Datatypes.S (Z.to_nat N)) (g := g) as (g' & E & P).
  - intros j Hj. unfold v. apply Rle_test. rewrite Z.ltb_lt. apply HT.
  - intros j Hj. unfold v. nums. f_equal. rewrite plus_IZR. ring.
  - intros j q. unfold S.
    exact (bounded_dec (fun m => vis ((-90 + IZR j * iv) * (PI / 180)) (lon_step m) = true /\
       cell (px ((-90 + IZR j * iv) * (PI / 180)) (place (lon_step m))) (pz ((-90 + IZR j * iv) * (PI / 180)) (place (lon_step m))) = Some q)
       (fun m => conj_dec _ _ _) (Z.to_nat 2000)).
  - intros j g0 Hj Hg0. unfold v, S. apply lat_line_spec; [|exact Hg0]. destruct Hj as [H0 H1]. apply HT in H1. apply IZR_le in H0.
    apply Rabs_le. split; nra.
  - lia.
  - exact Hg.
  - exists g', (Datatypes.S (Z.to_nat N)). split.
    + intros fuel Hf. apply (for_loop_more _ _ _ _ _ Hf).
      replace (a_of_Z ar_num (-90)) with (v 0%Z); [exact E|]. unfold v. nums. f_equal. simpl. ring.
    + eapply painted_ext; [exact P|]. intros q _. unfold S, lat_marks. split.
      * intros (j & Hj & m & Hm & H). exists (-90 + IZR j * iv), m. split; [exists j; split; [lia|]; split; [reflexivity|apply HT; lia]|]. tauto.
      * intros (n & m & (j & Hj & -> & H90) & Hm & H). exists j. split; [split; [lia|apply HT; exact H90]|]. exists m. tauto.
Qed.

Lemma lon_loop g : Z.of_nat (length g) = (samples * lines)%Z ->
  exists g' n0, (forall fuel, (n0 <= fuel)%nat ->
    for_loop fuel (fun n : ar_num => a_le ar_num n (a_of_Z ar_num 360)) (fun n => a_add ar_num n (Num jv : ar_num))
      (lon_line (A := ar_num) L num_acos num_ssize pro (Num eq : ar_num) (Num pol : ar_num) radius p samples lines
        (Num k : ar_num) (Num sc : ar_num) (Num lc : ar_num)) (a_add ar_num (a_of_Z ar_num 0) (Num jv : ar_num)) g = Some (Ok g')) /\
    painted g g' lon_marks.
Proof.
  intros Hg. set (N := Zfloor (360 / jv)). set (v := fun j : Z => (Num (IZR (j + 1) * jv) : ar_num)).
  assert (HN : (0 <= N)%Z).
  { assert (0 < N + 1)%Z; [|lia]. apply floor_le. simpl. apply div_le; [exact Hjv|]. lra. }
  assert (HT : forall j, (j < N)%Z <-> IZR (j + 1) * jv <= 360).
  { intros j. assert (E : (j < N)%Z <-> (j + 1 < N + 1)%Z) by lia. rewrite E. unfold N. rewrite floor_le, div_le by exact Hjv. tauto. }
  set (S := fun j q : Z => exists n, (0 <= n < 1000)%Z /\ (vis (lat_step n) (IZR (j + 1) * jv * (PI / 180)) = true /\
       cell (px (lat_step n) (IZR (j + 1) * jv * (PI / 180))) (pz (lat_step n) (IZR (j + 1) * jv * (PI / 180))) = Some q)).
  destruct (for_loop_paint (fun n : ar_num => a_le ar_num n (Num 360 : ar_num)) (fun n => a_add ar_num n (Num jv : ar_num))
     (lon_line (A := ar_num) L num_acos num_ssize pro (Num eq : ar_num) (Num pol : ar_num) radius p samples lines
        (Num k : ar_num) (Num sc : ar_num) (Num lc : ar_num)) v N (samples * lines) S HN) with (fuel := Datatypes.S (Z.to_nat N)) (g := g) as (g' & E & P).
  - intros j Hj. unfold v. apply Rle_test. rewrite Z.ltb_lt. apply HT.
  - intros j Hj. unfold v. nums. f_equal. rewrite !plus_IZR. ring.
  - intros j q. unfold S.
    exact (bounded_dec (fun n => vis (lat_step n) (IZR (j + 1) * jv * (PI / 180)) = true /\
       cell (px (lat_step n) (IZR (j + 1) * jv * (PI / 180))) (pz (lat_step n) (IZR (j + 1) * jv * (PI / 180))) = Some q)
       (fun m => conj_dec _ _ _) (Z.to_nat 1000)).
  - intros j g0 Hj Hg0. unfold v, S. apply lon_line_spec; [|exact Hg0]. destruct Hj as [H0 H1]. apply HT in H1.
    assert (0 < IZR (j + 1)) by (apply (IZR_lt 0); lia). split; nra.
  - lia.
  - exact Hg.
  - exists g', (Datatypes.S (Z.to_nat N)). split.
    + intros fuel Hf. apply (for_loop_more _ _ _ _ _ Hf).
      replace (a_add ar_num (a_of_Z ar_num 0) (Num jv)) with (v 0%Z); [exact E|]. unfold v. nums. f_equal. simpl. ring.
    + eapply painted_ext; [exact P|]. intros q _. unfold S, lon_marks. split.
      * intros (j & Hj & n & Hn & H). exists (IZR (j + 1) * jv), n. split; [exists (j + 1)%Z; split; [lia|]; split; [reflexivity|apply HT; lia]|]. tauto.
      * intros (m & n & (j & Hj & -> & H360) & Hn & H). exists (j - 1)%Z.
        replace (j - 1 + 1)%Z with j by lia. split; [split; [lia|apply HT; replace (j - 1 + 1)%Z with j by lia; exact H360]|]. exists n. tauto.
Qed.

Lemma grid_content : map_parameters (A := ar_num) (Num eq : ar_num) (Num pol : ar_num) p samples lines = (Num k : ar_num, Num sc : ar_num, Num lc : ar_num) ->
  exists g n0, (forall fuel, (n0 <= fuel)%nat ->
    make_grid samples lines (ortho_plot_grid (A := ar_num) L num_acos num_ssize pro (Num eq : ar_num) (Num pol : ar_num) radius p
      fuel samples lines (Num iv : ar_num) (Num jv : ar_num)) = Some (Ok g)) /\
    black_or_white (samples * lines) g /\
    forall j i, (0 <= j < lines)%Z -> (0 <= i < samples)%Z ->
      (white_at samples g j i <->
       (exists n m, latitude_line iv n /\ Rabs n < 90 /\ step 0 360 2000 m /\
          marks_at eq pol pro phi lam pa k sc lc n m (if pro then m else m + 2 * b) j i) \/
       (exists n m, longitude_line jv m /\ step (-90) 180 1000 n /\ Rabs n < 90 /\
          marks_at eq pol pro phi lam pa k sc lc n m m j i)).
Proof.
  intros Mp. pose proof (blank_bw samples lines Hmap) as [Bl Bv]. set (g0 := repeat 0%Z (Z.to_nat (wrap (samples * lines)))) in *.
  destruct (lat_loop g0 Bl) as (g1 & n1 & E1 & P1).
  assert (L1 : Z.of_nat (length g1) = (samples * lines)%Z) by (destruct P1 as [-> _]; exact Bl).
  destruct (lon_loop g1 L1) as (g2 & n2 & E2 & P2).
  exists g2, (Nat.max n1 n2). 
  assert (Run : forall fuel, (Nat.max n1 n2 <= fuel)%nat ->
    make_grid samples lines (ortho_plot_grid (A := ar_num) L num_acos num_ssize pro (Num eq : ar_num) (Num pol : ar_num) radius p
      fuel samples lines (Num iv : ar_num) (Num jv : ar_num)) = Some (Ok g2)).
  { intros fuel Hf. unfold make_grid, ortho_plot_grid. fold g0. rewrite Mp. rewrite E1 by lia. cbn [then_loop]. apply E2. lia. }
  split; [exact Run|]. split.
  { assert (Sf := ortho_safe (A := ar_num) L num_acos num_ssize pro (Num eq : ar_num) (Num pol : ar_num) radius p samples lines Hmap).
    specialize (fun H => Sf H (Nat.max n1 n2) (Num iv : ar_num) (Num jv : ar_num)). rewrite Run in Sf by lia. apply Sf.
    intros [|x]; [reflexivity|]. unfold num_ssize. cbv zeta. destruct (_ && _)%bool; auto. }
  intros j i Hj Hi. set (q := (j * samples + i)%Z).
  assert (Hq : (0 <= q < samples * lines)%Z) by (unfold q; nia).
  assert (Steps : forall m, step 0 360 2000 m <-> exists z, (0 <= z < 2000)%Z /\ radians m = lon_step z).
  { intros m. pose proof PI_RGT_0. split.
    - intros (z & Hz & ->). exists z. split; [exact Hz|]. unfold radians, lon_step. field.
    - intros (z & Hz & E). exists z. split; [exact Hz|]. unfold radians, lon_step in E.
      apply (Rmult_eq_reg_r (PI / 180)); [|lra]. rewrite E. field. }
  assert (Steps' : forall n, step (-90) 180 1000 n <-> exists z, (0 <= z < 1000)%Z /\ radians n = lat_step z).
  { intros n. pose proof PI_RGT_0. split.
    - intros (z & Hz & ->). exists z. split; [exact Hz|]. unfold radians, lat_step. field.
    - intros (z & Hz & E). exists z. split; [exact Hz|]. unfold radians, lat_step in E.
      apply (Rmult_eq_reg_r (PI / 180)); [|lra]. rewrite E. field. }
  assert (Vin : forall nn m, vis nn m = true -> Rabs nn < PI / 2).
  { intros nn m H. unfold vis in H. apply andb_prop in H. destruct H as [H _]. destruct (Rlt_bool_spec (Rabs nn) (PI / 2)); [assumption|discriminate]. }
  assert (A1 : lat_marks q <-> exists n m, latitude_line iv n /\ Rabs n < 90 /\ step 0 360 2000 m /\
          marks_at eq pol pro phi lam pa k sc lc n m (if pro then m else m + 2 * b) j i).
  { unfold lat_marks. split.
    - intros (n & z & Hn & Hz & Hv & Hc). fold (radians n) in *.
      assert (Em : radians (0 + IZR z * 360 / 2000) = lon_step z) by (unfold radians, lon_step; field).
      exists n, (0 + IZR z * 360 / 2000). split; [exact Hn|].
      assert (N90 : Rabs n < 90).
      { apply Vin in Hv. unfold radians in Hv. rewrite Rabs_mult in Hv. pose proof PI_RGT_0. rewrite (Rabs_pos_eq (PI / 180)) in Hv by lra. nra. }
      split; [exact N90|]. split; [exists z; split; [exact Hz|reflexivity]|].
      apply marks_cell; [exact N90|exact Hj|exact Hi|]. rewrite Em. split; [exact Hv|].
      rewrite <- Em in Hc. destruct (place_degrees (radians n) (0 + IZR z * 360 / 2000)) as [Px Pz]. rewrite Px, Pz in Hc. exact Hc.
    - intros (n & m & Hn & N90 & Hm & Hk'). apply marks_cell in Hk'; [|exact N90|exact Hj|exact Hi]. destruct Hk' as [Hv Hc].
      apply Steps in Hm. destruct Hm as (z & Hz & Em). exists n, z. split; [exact Hn|]. split; [exact Hz|].
      fold (radians n). rewrite <- Em. split; [exact Hv|].
      destruct (place_degrees (radians n) m) as [Px Pz]. rewrite Px, Pz. exact Hc. }
  assert (A2 : lon_marks q <-> exists n m, longitude_line jv m /\ step (-90) 180 1000 n /\ Rabs n < 90 /\
          marks_at eq pol pro phi lam pa k sc lc n m m j i).
  { unfold lon_marks. split.
    - intros (m & z & Hm & Hz & Hv & Hc). fold (radians m) in *.
      assert (En : radians (-90 + IZR z * 180 / 1000) = lat_step z) by (unfold radians, lat_step; field).
      exists (-90 + IZR z * 180 / 1000), m. split; [exact Hm|]. split; [exists z; split; [exact Hz|reflexivity]|].
      assert (N90 : Rabs (-90 + IZR z * 180 / 1000) < 90).
      { rewrite <- En in Hv. apply Vin in Hv. unfold radians in Hv. rewrite Rabs_mult in Hv. pose proof PI_RGT_0. rewrite (Rabs_pos_eq (PI / 180)) in Hv by lra. nra. }
      split; [exact N90|]. apply marks_cell; [exact N90|exact Hj|exact Hi|]. rewrite En. split; [exact Hv|exact Hc].
    - intros (n & m & Hm & Hn & N90 & Hk'). apply marks_cell in Hk'; [|exact N90|exact Hj|exact Hi]. destruct Hk' as [Hv Hc].
      apply Steps' in Hn. destruct Hn as (z & Hz & En). exists m, z. split; [exact Hm|]. split; [exact Hz|].
      fold (radians m). rewrite <- En. split; [exact Hv|exact Hc]. }
  rewrite <- A1, <- A2. unfold white_at. fold q.
  destruct P1 as [Pl1 P1]. destruct P2 as [Pl2 P2]. rewrite Bl in P1. rewrite L1 in P2.
  destruct (P1 q Hq) as [P1a P1b]. destruct (P2 q Hq) as [P2a P2b].
  assert (D1 : lat_marks q \/ ~ lat_marks q) by (apply Classical_Prop.classic).
  assert (D2 : lon_marks q \/ ~ lon_marks q) by (apply Classical_Prop.classic).
  split.
  - intros W. destruct D1 as [D1|D1]; [auto|]. destruct D2 as [D2|D2]; [auto|]. exfalso.
    rewrite (P2b D2), (P1b D1) in W. apply nth_error_In in W. apply repeat_spec in W. discriminate.
  - intros [W|W]; [|apply P2a; exact W]. destruct D2 as [D2|D2]; [apply P2a; exact D2|]. rewrite (P2b D2). apply P1a. exact W.
Qed.
End Content.
