(** Lemmas for C41-C45 and C78-C82. *)
From Coq Require Import List ZArith Reals Lra Lia Bool.
From Flocq Require Import Core BinarySingleNaN.
From Verif Require Import Base Flt FltFacts Num LinAlg_Model Maths_Model Maths_Spec Maths_Proofs LinAlg_Proofs
  Spheroid_Model Spheroid_Spec Spheroid_Proofs View_Model View_Spec.
Import ListNotations.
Open Scope R_scope.

(** ** C44 *)

Lemma cbrt_pos x : 0 < x -> 0 < cbrt x /\ cbrt x * cbrt x * cbrt x = x.
Proof.
  intros H. unfold cbrt. rewrite Rlt_bool_true by exact H. split; [apply exp_pos|].
  rewrite <- !Rpower_plus. replace (/ 3 + / 3 + / 3) with 1 by field. now apply Rpower_1.
Qed.

Lemma cbrt_neg x : x < 0 -> cbrt x < 0 /\ cbrt x * cbrt x * cbrt x = x.
Proof.
  intros H. unfold cbrt. rewrite Rlt_bool_false, Rlt_bool_true by lra.
  assert (0 < Rpower (- x) (/ 3)) by apply exp_pos.
  assert (E : Rpower (- x) (/ 3) * Rpower (- x) (/ 3) * Rpower (- x) (/ 3) = - x).
  { rewrite <- !Rpower_plus. replace (/ 3 + / 3 + / 3) with 1 by field. apply Rpower_1. lra. }
  split; [lra|]. transitivity (- (Rpower (- x) (/ 3) * Rpower (- x) (/ 3) * Rpower (- x) (/ 3))); [ring|lra].
Qed.

Lemma cube_inj x y : x * x * x = y * y * y -> x = y.
Proof.
  intros H. assert (E : (x - y) * (x * x + x * y + y * y) = 0) by lra.
  apply Rmult_integral in E as [E|E]; [lra|].
  assert (x * x + x * y + y * y = (x + y / 2) * (x + y / 2) + 3 / 4 * (y * y)) by field.
  assert (0 <= (x + y / 2) * (x + y / 2)) by apply Rle_0_sqr. assert (0 <= y * y) by apply Rle_0_sqr.
  assert (Y : y * y = 0) by lra. apply Rmult_integral in Y. assert (y = 0) by tauto. subst y.
  assert (X : x * x = 0) by lra. apply Rmult_integral in X. tauto.
Qed.

(** The cubic formula. *)
Lemma cardano k s : 0 < k -> 0 < s ->
  let c1 := s / (2 * k) in let c2 := sqrt (c1 ^ 2 + (1 / (3 * k)) ^ 3) in
  let r := cbrt (c1 + c2) + cbrt (c1 - c2) in 0 < r /\ r * (1 + k * (r * r)) = s.
Proof.
  intros Hk Hs. cbv zeta. set (c1 := s / (2 * k)). set (q := 1 / (3 * k)).
  assert (0 < c1) by (apply Rdiv_lt_0_compat; lra). assert (0 < q) by (apply Rdiv_lt_0_compat; lra).
  assert (Q3 : 0 < q ^ 3) by (apply pow_lt; lra).
  set (c2 := sqrt (c1 ^ 2 + q ^ 3)).
  assert (E2 : c2 * c2 = c1 * c1 + q * q * q) by (unfold c2; rewrite sqrt_sqrt by nra; ring).
  assert (0 <= c2) by apply sqrt_pos. assert (c1 < c2) by nra.
  destruct (cbrt_pos (c1 + c2)) as [Pa Ea]; [lra|]. destruct (cbrt_neg (c1 - c2)) as [Pb Eb]; [lra|].
  set (a := cbrt (c1 + c2)) in *. set (b := cbrt (c1 - c2)) in *.
  assert (AB : a * b = - q).
  { apply cube_inj. transitivity ((a * a * a) * (b * b * b)); [ring|]. rewrite Ea, Eb.
    transitivity (c1 * c1 - c2 * c2); [ring|rewrite E2; ring]. }
  assert (R3 : (a + b) * (a + b) * (a + b) = 2 * c1 - 3 * q * (a + b)).
  { transitivity (a * a * a + b * b * b + 3 * (a * b) * (a + b)); [ring|]. rewrite Ea, Eb, AB. ring. }
  assert (3 * q * k = 1) by (unfold q; field; lra). assert (2 * c1 * k = s) by (unfold c1; field; lra).
  assert (EQ : (a + b) * (1 + k * ((a + b) * (a + b))) = s).
  { transitivity ((a + b) + k * ((a + b) * (a + b) * (a + b))); [ring|]. rewrite R3.
    transitivity ((a + b) * (1 - 3 * q * k) + 2 * c1 * k); [ring|]. rewrite H3, H4. ring. }
  split; [|exact EQ]. generalize dependent (a + b). intros w _ EQ.
  assert (0 <= k * (w * w)) by (apply Rmult_le_pos; [lra|apply Rle_0_sqr]).
  destruct (Rlt_le_dec 0 w) as [|L]; [assumption|]. exfalso.
  assert (w * (1 + k * (w * w)) <= 0) by (generalize dependent (k * (w * w)); intros; nra). lra.
Qed.

Lemma distort_inj k r r' : 0 < k -> 0 <= r -> 0 <= r' -> r * (1 + k * (r * r)) = r' * (1 + k * (r' * r')) -> r = r'.
Proof.
  intros Hk H H' E. destruct (Rtotal_order r r') as [L|[L|L]]; [exfalso| exact L |exfalso].
  - assert (r * r <= r' * r') by nra. assert (k * (r * r) <= k * (r' * r')) by nra.
    assert (0 <= k * (r * r)) by nra. nra.
  - assert (r' * r' <= r * r) by nra. assert (k * (r' * r') <= k * (r * r)) by nra.
    assert (0 <= k * (r' * r')) by nra. nra.
Qed.

Lemma hypot_sq x y : hypot x y * hypot x y = x * x + y * y.
Proof. unfold hypot. apply sqrt_sqrt. nra. Qed.
Lemma hypot_pos x y : 0 <= hypot x y.
Proof. apply sqrt_pos. Qed.
Lemma hypot_scale x y k : 0 <= k -> hypot (x * k) (y * k) = hypot x y * k.
Proof.
  intros H. unfold hypot. replace (x * k * (x * k) + y * k * (y * k)) with ((x * x + y * y) * (k * k)) by ring.
  rewrite sqrt_mult by nra. now rewrite sqrt_square.
Qed.
Lemma hypot_0 x y : hypot x y = 0 -> x = 0 /\ y = 0.
Proof. intros H. pose proof (hypot_sq x y) as E. rewrite H in E. nra. Qed.

Lemma dist_pos : 0 < DISTORTION.
Proof. unfold DISTORTION. lra. Qed.

(** Full-frame coordinates relative to the axis. *)
Local Definition full (sm : bool) (l : R) : R := if sm then l * 2 - 400 else l - 400.
Local Definition unfull (sm : bool) (y : R) : R := if sm then (y + 400) / 2 else y + 400.
Lemma full_unfull sm y : full sm (unfull sm y) = y.
Proof. unfold full, unfull. destruct sm; field. Qed.
Lemma unfull_full sm l : unfull sm (full sm l) = l.
Proof. unfold full, unfull. destruct sm; field. Qed.

Local Definition undistorted (s : R) : R :=
  cbrt (s / (2 * DISTORTION) + sqrt ((s / (2 * DISTORTION)) ^ 2 + (1 / (3 * DISTORTION)) ^ 3)) +
  cbrt (s / (2 * DISTORTION) - sqrt ((s / (2 * DISTORTION)) ^ 2 + (1 / (3 * DISTORTION)) ^ 3)).

Lemma gll_o2i_eq sm l s :
  let y := full sm l in let x := full sm s in
  gll_object_to_image sm l s = (unfull sm (y * (1 + DISTORTION * (x * x + y * y))), unfull sm (x * (1 + DISTORTION * (x * x + y * y)))).
Proof. unfold gll_object_to_image, full, unfull, OA_LINE, OA_SAMPLE. destruct sm; reflexivity. Qed.

Lemma gll_i2o_eq sm l s :
  let y := full sm l in let x := full sm s in let h := hypot x y in
  gll_image_to_object sm l s = if Req_bool h 0 then (l, s)
    else (unfull sm (undistorted h * y / h), unfull sm (undistorted h * x / h)).
Proof.
  unfold gll_image_to_object, full, unfull, undistorted, OA_LINE, OA_SAMPLE.
  destruct sm; cbv zeta; destruct (Req_bool _ _); reflexivity.
Qed.

Lemma gll_o2i_i2o sm l s :
  let p := gll_image_to_object sm l s in gll_object_to_image sm (fst p) (snd p) = (l, s).
Proof.
  cbv zeta. rewrite gll_i2o_eq. set (y := full sm l). set (x := full sm s). set (h := hypot x y).
  pose proof dist_pos as Hk. rewrite gll_o2i_eq.
  destruct (Req_bool_spec h 0) as [E|E]; cbn [fst snd].
  - apply hypot_0 in E as [Ex Ey]. fold x y. rewrite Ex, Ey, !Rmult_0_l. unfold x, y in *.
    f_equal; [rewrite <- Ey|rewrite <- Ex]; apply unfull_full.
  - assert (Hh : 0 < h) by (pose proof (hypot_pos x y); unfold h in *; lra).
    destruct (cardano DISTORTION h Hk Hh) as [Pr Er]. change (0 < undistorted h) in Pr.
    change (undistorted h * (1 + DISTORTION * (undistorted h * undistorted h)) = h) in Er.
    set (r := undistorted h) in *. rewrite !full_unfull.
    pose proof (hypot_sq x y) as S. fold h in S.
    replace (r * x / h * (r * x / h) + r * y / h * (r * y / h)) with (r * r).
    2:{ transitivity (r * r * (x * x + y * y) / (h * h)); [rewrite <- S|]; field; lra. }
    replace (r * y / h * (1 + DISTORTION * (r * r))) with y.
    2:{ transitivity (y / h * (r * (1 + DISTORTION * (r * r)))); [rewrite Er|]; field; lra. }
    replace (r * x / h * (1 + DISTORTION * (r * r))) with x.
    2:{ transitivity (x / h * (r * (1 + DISTORTION * (r * r)))); [rewrite Er|]; field; lra. }
    unfold x, y. now rewrite !unfull_full.
Qed.

Lemma gll_i2o_o2i sm l s :
  let p := gll_object_to_image sm l s in gll_image_to_object sm (fst p) (snd p) = (l, s).
Proof.
  cbv zeta. rewrite gll_o2i_eq. set (y := full sm l). set (x := full sm s). cbn [fst snd].
  rewrite gll_i2o_eq. rewrite !full_unfull. pose proof dist_pos as Hk.
  set (t := 1 + DISTORTION * (x * x + y * y)). assert (Ht : 1 <= t) by (unfold t; nra).
  rewrite hypot_scale by lra. set (h := hypot x y). pose proof (hypot_pos x y) as Hh. fold h in Hh.
  pose proof (hypot_sq x y) as S. fold h in S.
  destruct (Req_bool_spec (h * t) 0) as [E|E].
  - assert (h = 0) by nra. apply hypot_0 in H as [Ex Ey]. rewrite Ex, Ey, !Rmult_0_l. unfold x, y in *.
    f_equal; [rewrite <- Ey|rewrite <- Ex]; apply unfull_full.
  - assert (Hp : 0 < h * t) by (assert (0 <= h * t) by nra; lra).
    destruct (cardano DISTORTION (h * t) Hk Hp) as [Pr Er]. change (0 < undistorted (h * t)) in Pr.
    change (undistorted (h * t) * (1 + DISTORTION * (undistorted (h * t) * undistorted (h * t))) = h * t) in Er.
    assert (R : undistorted (h * t) = h).
    { apply (distort_inj DISTORTION); [exact Hk|lra|exact Hh|]. rewrite Er. unfold t. now rewrite S. }
    rewrite R. assert (h <> 0) by nra.
    replace (h * (y * t) / (h * t)) with y by (field; split; lra).
    replace (h * (x * t) / (h * t)) with x by (field; split; lra).
    unfold x, y. now rewrite !unfull_full.
Qed.

Lemma axis_distance_full sm l s :
  axis_distance sm (l, s) = hypot (full sm s) (full sm l) / (if sm then 2 else 1).
Proof.
  unfold axis_distance, hypot, full, axis. cbn [fst snd]. destruct sm.
  - replace ((s * 2 - 400) * (s * 2 - 400) + (l * 2 - 400) * (l * 2 - 400))
      with (((l - 200) ^ 2 + (s - 200) ^ 2) * (2 * 2)) by ring.
    pose proof (pow2_ge_0 (l - 200)). pose proof (pow2_ge_0 (s - 200)).
    rewrite sqrt_mult by lra. rewrite sqrt_square by lra. field.
  - unfold Rdiv. rewrite Rinv_1, Rmult_1_r. f_equal. ring.
Qed.

Lemma gll_grows sm l s : (l, s) <> (axis sm, axis sm) ->
  axis_distance sm (l, s) < axis_distance sm (gll_object_to_image sm l s).
Proof.
  intros N. rewrite gll_o2i_eq. set (y := full sm l). set (x := full sm s). pose proof dist_pos as Hk.
  rewrite !axis_distance_full, !full_unfull. fold x y.
  set (t := 1 + DISTORTION * (x * x + y * y)).
  assert (P : 0 < x * x + y * y).
  { destruct (Req_dec x 0) as [Ex|]; [|nra]. destruct (Req_dec y 0) as [Ey|]; [|nra]. exfalso. apply N.
    unfold x, y, full, axis in *. destruct sm; f_equal; lra. }
  assert (Ht : 1 < t) by (unfold t; nra). rewrite hypot_scale by lra.
  assert (0 < hypot x y) by (apply sqrt_lt_R0; exact P).
  unfold Rdiv. apply Rmult_lt_compat_r; [apply Rinv_0_lt_compat; destruct sm; lra|]. nra.
Qed.


Lemma gll_axis sm : gll_object_to_image sm (axis sm) (axis sm) = (axis sm, axis sm) /\
  gll_image_to_object sm (axis sm) (axis sm) = (axis sm, axis sm).
Proof.
  assert (F : full sm (axis sm) = 0) by (unfold full, axis; destruct sm; ring).
  split.
  - rewrite gll_o2i_eq, F, !Rmult_0_l. rewrite <- F. now rewrite unfull_full.
  - rewrite gll_i2o_eq, F. rewrite Req_bool_true; [reflexivity|]. unfold hypot.
    rewrite Rmult_0_l, Rplus_0_l. apply sqrt_0.
Qed.

Lemma gll_all samples sm : (sm = true <-> (samples <= 400)%Z) ->
  let c := gll_correction samples in
  (forall l s, let p := image_to_object c l s in object_to_image c (fst p) (snd p) = (l, s)) /\
  (forall l s, let p := object_to_image c l s in image_to_object c (fst p) (snd p) = (l, s)) /\
  (object_to_image c (axis sm) (axis sm) = (axis sm, axis sm) /\
   image_to_object c (axis sm) (axis sm) = (axis sm, axis sm)) /\
  (forall l s, (l, s) <> (axis sm, axis sm) -> axis_distance sm (l, s) < axis_distance sm (object_to_image c l s)).
Proof.
  intros H. assert (E : summation_mode samples = sm).
  { unfold summation_mode. destruct (Z.leb_spec samples 400), sm; try reflexivity; exfalso; [apply H in H0; discriminate|].
    assert (samples <= 400)%Z by (apply H; reflexivity). lia. }
  cbv zeta. unfold gll_correction. cbn [object_to_image image_to_object]. rewrite E.
  split; [apply gll_o2i_i2o|]. split; [apply gll_i2o_o2i|]. split; [apply gll_axis|apply gll_grows].
Qed.
