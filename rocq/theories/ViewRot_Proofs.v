(** Lemmas about the rotation matrices of a view: C43, C78-C80. *)
From Coq Require Import List ZArith Reals Lra Lia Bool.
From Flocq Require Import Core BinarySingleNaN.
From Verif Require Import Base Flt FltFacts Num LinAlg_Model Maths_Model Maths_Spec Maths_Proofs LinAlg_Proofs
  Spheroid_Model Spheroid_Spec Spheroid_Proofs View_Model View_Spec View_Proofs.
Import ListNotations.
Open Scope R_scope.

Lemma o2b_apply Z X pa v : is_vec 3 v -> m3v (o2b_matrix Z X pa) v = RotZ Z (RotX X (RotY (- pa) v)).
Proof.
  intros H. unfold m3v, o2b_matrix, m3mul. rewrite !mmul_assoc_vec.
  rewrite (proj1 (proj2 (rot_matrix (- pa) v H))).
  rewrite (proj1 (rot_matrix X (RotY (- pa) v) eq_refl)).
  now rewrite (proj2 (proj2 (rot_matrix Z (RotX X (RotY (- pa) v)) eq_refl))).
Qed.

Lemma mmul_identity m : is_mat 3 3 m -> mmul 3 3 3 m identity3 = m /\ mmul 3 3 3 identity3 m = m.
Proof.
  intros H. split; apply (mat_ext 3 3); try (apply mmul_mat || exact H); intros r c Hr Hc; rewrite mmul_get by assumption;
    cbn [sum_to].
  - destruct c as [|[|[|c]]]; try lia; cbn; ring.
  - destruct r as [|[|[|r]]]; try lia; cbn; ring.
Qed.

Lemma orthogonal_mul a b : orthogonal a -> orthogonal b -> orthogonal (m3mul a b).
Proof.
  unfold orthogonal, m3mul. intros (Ha & A1 & A2) (Hb & B1 & B2). split; [apply mmul_mat|].
  rewrite transpose_mmul. split.
  - rewrite mmul_assoc, <- (mmul_assoc 3 3 3 3 b), B1. rewrite (proj2 (mmul_identity _ (transpose_mat 3 3 a))). exact A1.
  - rewrite mmul_assoc, <- (mmul_assoc 3 3 3 3 (transpose 3 3 a)), A2. rewrite (proj2 (mmul_identity _ Hb)). exact B2.
Qed.

Lemma o2b_orthogonal Z X pa : orthogonal (o2b_matrix Z X pa).
Proof.
  assert (T : forall m, (m = RotXMatrix X \/ m = RotYMatrix (- pa) \/ m = RotZMatrix Z) -> orthogonal m).
  { intros m Hm. unfold orthogonal, m3mul.
    destruct (rot_orthogonal X) as (X1 & X2 & _). destruct (rot_orthogonal (- pa)) as (_ & _ & Y1 & Y2 & _).
    destruct (rot_orthogonal Z) as (_ & _ & _ & _ & Z1 & Z2).
    destruct Hm as [->|[->| ->]]; (split; [split; [reflexivity|intros r [<-|[<-|[<-|[]]]]; reflexivity]|auto]). }
  unfold o2b_matrix. repeat apply orthogonal_mul; apply T; auto.
Qed.

Lemma orthogonal_apply m v : orthogonal m -> is_vec 3 v ->
  m3v m (m3v (transpose 3 3 m) v) = v /\ m3v (transpose 3 3 m) (m3v m v) = v.
Proof.
  intros (Hm & A & B) Hv. unfold m3v, m3mul in *. rewrite <- !mmul_assoc_vec, A, B.
  unfold is_vec in Hv. vec3 v Hv. split; cbn; elements; ring.
Qed.

Lemma orthogonal_transpose m : orthogonal m -> orthogonal (transpose 3 3 m).
Proof.
  intros (Hm & A & B). split; [apply transpose_mat|]. rewrite transpose_involutive by exact Hm. auto.
Qed.

Lemma m3v_vec m v : is_vec 3 (m3v m v).
Proof. apply mvmul_vec. Qed.

Lemma m3v_sub m u v : is_vec 3 u -> is_vec 3 v -> m3v m (vsub u v) = vsub (m3v m u) (m3v m v).
Proof.
  intros Hu Hv. unfold is_vec in *. vec3 u Hu. vec3 v Hv. apply (vec_ext 3); [apply mvmul_vec|reflexivity|].
  intros i Hi. unfold m3v at 1. rewrite mvmul_get by exact Hi. unfold vsub.
  rewrite (map2_get Rminus _ _ 3) by (try apply mvmul_vec; exact Hi).
  unfold m3v. rewrite !mvmul_get by exact Hi. cbn [sum_to]. unfold vget. cbn. ring.
Qed.

Lemma m3v_scale m u k : is_vec 3 u -> m3v m (vscale u k) = vscale (m3v m u) k.
Proof. intros H. exact (proj2 (mvmul_linear 3 3 m u u k H H)). Qed.

(** *** Magnitudes *)

Lemma mag3_sq v : mag3 v * mag3 v = vget v 0 * vget v 0 + vget v 1 * vget v 1 + vget v 2 * vget v 2.
Proof. unfold mag3. apply sqrt_sqrt. nra. Qed.

Lemma mag3_zero v : is_vec 3 v -> mag3 v = 0 -> v = [0; 0; 0].
Proof.
  unfold is_vec. intros H E. vec3 v H. pose proof (mag3_sq [x; y; z]) as S. rewrite E in S. unfold vget in S. cbn [nth] in S.
  assert (x * x = 0 /\ y * y = 0 /\ z * z = 0) as (X & Y & Z) by (repeat split; nra).
  apply Rmult_integral in X, Y, Z. elements; tauto.
Qed.

Lemma mag3_diff_zero u v : is_vec 3 u -> is_vec 3 v -> (mag3 (vsub u v) = 0 <-> u = v).
Proof.
  unfold is_vec. intros Hu Hv. vec3 u Hu. vec3 v Hv. split.
  - intros E. apply mag3_zero in E; [|reflexivity]. cbn in E. injection E as E0 E1 E2. elements; lra.
  - intros ->. unfold mag3, vget. cbn. rewrite !sub_self, Rmult_0_r, !Rplus_0_r. apply sqrt_0.
Qed.

Lemma unit3_spec v : is_vec 3 v -> mag3 v <> 0 -> unit3 v = Some (vscale v (/ mag3 v)).
Proof.
  unfold is_vec. intros H N. vec3 v H. unfold unit3. rewrite Req_bool_false by exact N. reflexivity.
Qed.

(** *** Choosing a candidate *)

Lemma choose_exact target source m1 m2 : is_vec 3 target ->
  m1 <> None -> (exists m, (m1 = Some m \/ m2 = Some m) /\ m3v m source = target) ->
  exists m, choose target source m1 m2 = rotation_is m /\ (m1 = Some m \/ m2 = Some m) /\ m3v m source = target.
Proof.
  intros Ht N1 (m & Hm & Em). destruct m1 as [a|]; [|congruence].
  assert (P : forall w, 0 <= mag3 w) by (intros; apply sqrt_pos).
  assert (Z : mag3 (vsub target (m3v m source)) = 0).
  { apply mag3_diff_zero; [exact Ht|apply m3v_vec|congruence]. }
  assert (S : forall x, mag3 (vsub target (m3v x source)) <= 0 -> m3v x source = target).
  { intros x L. symmetry. apply mag3_diff_zero; [exact Ht|apply m3v_vec|]. specialize (P (vsub target (m3v x source))). lra. }
  unfold choose, candidate_error, nlt. destruct m2 as [b|]; cbn [a_lt ar_num num_lt].
  - destruct (Rlt_bool_spec (mag3 (vsub target (m3v b source))) (mag3 (vsub target (m3v a source)))) as [L|L].
    + exists b. split; [reflexivity|]. split; [auto|]. destruct Hm as [Hm|Hm]; injection Hm as ->; [|exact Em].
      specialize (P (vsub target (m3v b source))). lra.
    + exists a. split; [reflexivity|]. split; [auto|]. destruct Hm as [Hm|Hm]; injection Hm as ->; [exact Em|].
      apply S. lra.
  - exists a. split; [reflexivity|]. split; [auto|]. destruct Hm as [Hm|Hm]; [injection Hm as ->; exact Em|discriminate].
Qed.

(** *** The twist about the polar axis *)

Lemma twist p q w : RotZ (atan2 p (- q)) [p; q; w] = [0; - sqrt (p * p + q * q); w].
Proof.
  unfold RotZ, vget. cbn [nth].
  destruct (Req_dec (p * p + q * q) 0) as [E|E].
  - assert (p = 0) by nra. assert (q = 0) by nra. subst. rewrite E, sqrt_0. elements; ring.
  - destruct (atan2_polar (- q) p) as (C & S & _).
    { destruct (Req_dec p 0) as [->|]; [|auto]. left. intros Q. apply E. nra. }
    assert (Hh : hypot (- q) p = sqrt (p * p + q * q)) by (unfold hypot; f_equal; ring).
    rewrite Hh in *. set (h := sqrt (p * p + q * q)) in *.
    assert (HS : h * h = p * p + q * q) by (apply sqrt_sqrt; nra). assert (0 <= h) by apply sqrt_pos.
    assert (h <> 0) by nra. set (c := cos (atan2 p (- q))) in *. set (s := sin (atan2 p (- q))) in *.
    elements.
    + rewrite <- S. replace q with (- (h * c)) by lra. ring.
    + apply Rmult_eq_reg_l with h; [|assumption].
      transitivity (- (p * (h * s)) + q * (h * c)); [ring|]. rewrite S, C. lra.
    + reflexivity.
Qed.

Lemma vscale3 a b c k : vscale [a; b; c] k = [a * k; b * k; c * k].
Proof. reflexivity. Qed.
Lemma RotY_scale a v k : is_vec 3 v -> RotY a (vscale v k) = vscale (RotY a v) k.
Proof. unfold is_vec. intros H. vec3 v H. unfold RotY, vscale, vget. cbn. elements; ring. Qed.
Lemma RotX_scale a v k : is_vec 3 v -> RotX a (vscale v k) = vscale (RotX a v) k.
Proof. unfold is_vec. intros H. vec3 v H. unfold RotX, vscale, vget. cbn. elements; ring. Qed.
Lemma RotZ_scale a v k : is_vec 3 v -> RotZ a (vscale v k) = vscale (RotZ a v) k.
Proof. unfold is_vec. intros H. vec3 v H. unfold RotZ, vscale, vget. cbn. elements; ring. Qed.
Lemma RotY_norm a x y z : let v := RotY a [x; y; z] in vget v 1 = y /\ vget v 0 * vget v 0 + vget v 2 * vget v 2 = x * x + z * z.
Proof.
  cbv zeta. unfold RotY, vget. cbn [nth]. split; [reflexivity|].
  transitivity ((x * x + z * z) * (sin a * sin a + cos a * cos a)); [ring|]. rewrite trig1. ring.
Qed.

Section Center.
Context (phi pa range x n z : R).
Hypothesis Hphi : - (PI / 2) <= phi <= PI / 2.
Hypothesis Hrange : 0 < range.
Hypothesis Hn : 0 < n.
Hypothesis Hsq : x * x + n * n + z * z = range * range.

Let target := [0; - range * cos phi; range * sin phi].
Let source := [x; - n; z].
Let r_o := RotY (- pa) (vscale source (/ range)).
Let p := vget r_o 0.
Let q := vget r_o 1.
Let s := vget r_o 2.

Lemma source_mag : mag3 source = range.
Proof.
  unfold mag3, source, vget. cbn [nth]. replace (x * x + - n * - n + z * z) with (range * range) by lra.
  apply sqrt_square. lra.
Qed.

Lemma pqs : r_o = [p; q; s] /\ q = - n / range /\ p * p + q * q + s * s = 1.
Proof.
  split; [reflexivity|]. unfold p, q, s, r_o, source. rewrite vscale3.
  destruct (RotY_norm (- pa) (x * / range) (- n * / range) (z * / range)) as [E1 E2]. rewrite E1.
  split; [reflexivity|].
  transitivity ((x * x + n * n + z * z) / (range * range)); [|rewrite Hsq; field; lra].
  transitivity ((x * / range * (x * / range) + z * / range * (z * / range)) + - n * / range * (- n * / range)).
  - rewrite <- E2. ring.
  - field. lra.
Qed.

(** A root of the quadratic with the right sign gives an exact rotation. *)
Lemma exact_candidate t : -1 <= t <= 1 -> s * sqrt (1 - t * t) = sin phi + q * t ->
  exists m, candidate pa r_o (Num t) = Some m /\ m3v m source = target.
Proof.
  intros Ht E. destruct pqs as (Er & Eq & N1). unfold candidate, nasin.
  rewrite !Rle_bool_true by lra. cbn [andb]. eexists. split; [reflexivity|].
  rewrite o2b_apply by reflexivity.
  assert (Es : source = vscale (vscale source (/ range)) range).
  { unfold source. rewrite !vscale3. elements; field; lra. }
  rewrite Es. rewrite RotY_scale by reflexivity. rewrite RotX_scale, RotZ_scale by reflexivity. fold r_o.
  rewrite Er. unfold RotX at 1 2 3. unfold vget at 1 2 3 4 5 6 7 8. cbn [nth].
  rewrite sin_asin, cos_asin by exact Ht. change (Rsqr t) with (t * t).
  set (y := q * sqrt (1 - t * t) + s * t). set (w := - q * t + s * sqrt (1 - t * t)).
  assert (Ew : w = sin phi) by (unfold w; lra).
  change (vget [p; q; s] 0) with p. change (vget [p; q; s] 1) with q. change (vget [p; q; s] 2) with s. fold y w. rewrite twist.
  assert (Ht2 : 0 <= 1 - t * t) by nra. pose proof (sqrt_sqrt _ Ht2) as SS.
  assert (Sy : p * p + y * y = cos phi * cos phi).
  { assert (w * w + y * y = q * q + s * s).
    { unfold w, y. set (c := sqrt (1 - t * t)) in *.
      transitivity ((q * q + s * s) * (t * t + c * c)); [ring|]. rewrite SS. ring. }
    rewrite Ew in H. pose proof (trig2 phi). lra. }
  rewrite Sy, sqrt_square by (apply cos_ge_0; lra). rewrite vscale3, Ew. unfold target. elements; ring.
Qed.

Let a := s * s + q * q.
Let b := 2 * q * sin phi.
Let c := sin phi * sin phi - s * s.

Lemma root_sq t : a * t * t + b * t + c = 0 <-> (sin phi + q * t) * (sin phi + q * t) = s * s * (1 - t * t).
Proof. unfold a, b, c. split; intros; lra. Qed.

(** The view is reachable: the offset of the center is at most range * cos phi. *)
Hypothesis Hreach : range * Rabs (sin phi) <= n.

Lemma q_reach : q < 0 /\ sin phi * sin phi <= q * q.
Proof.
  destruct pqs as (_ & Eq & _). assert (0 < n / range) by (apply Rdiv_lt_0_compat; lra).
  rewrite Eq. split; [unfold Rdiv in *; lra|].
  assert (Rabs (sin phi) <= n / range).
  { apply Rmult_le_reg_l with range; [exact Hrange|]. replace (range * (n / range)) with n by (field; lra). exact Hreach. }
  replace (sin phi * sin phi) with (Rabs (sin phi) * Rabs (sin phi)) by (rewrite <- Rabs_mult; apply Rabs_right; nra).
  replace (- n / range * (- n / range)) with (n / range * (n / range)) by (field; lra).
  pose proof (Rabs_pos (sin phi)). nra.
Qed.

Lemma root_bound t : a * t * t + b * t + c = 0 -> -1 <= t <= 1.
Proof.
  intros H. apply root_sq in H. destruct q_reach as [Hq Hs].
  assert (t * t <= 1); [|nra].
  destruct (Req_dec s 0) as [E|E].
  - rewrite E, !Rmult_0_l in H. apply Rmult_integral in H. assert (sin phi = - q * t) by lra.
    rewrite H0 in Hs. assert (q * q * (t * t) <= q * q * 1) by lra. assert (0 < q * q) by nra.
    now apply Rmult_le_reg_l with (q * q).
  - assert (0 < s * s) by nra. assert (0 <= s * s * (1 - t * t)) by (rewrite <- H; apply Rle_0_sqr).
    destruct (Rle_lt_dec (t * t) 1); [assumption|]. nra.
Qed.

Lemma good_root : exists t, a * t * t + b * t + c = 0 /\ s * sqrt (1 - t * t) = sin phi + q * t.
Proof.
  destruct q_reach as [Hq Hs]. assert (Ha : 0 < a) by (unfold a; nra).
  set (D := sqrt (a - sin phi * sin phi)). assert (HD : D * D = a - sin phi * sin phi) by (apply sqrt_sqrt; unfold a; nra).
  assert (0 <= D) by apply sqrt_pos.
  set (t := (- q * sin phi - s * D) / a).
  assert (R : (sin phi + q * t) * a = s * (s * sin phi - q * D)).
  { unfold t. transitivity (sin phi * a + q * (- q * sin phi - s * D)); [field; lra|]. unfold a. ring. }
  assert (G : 0 <= s * sin phi - q * D).
  { destruct (Rle_lt_dec 0 (s * sin phi)); [nra|].
    assert (SQ : (s * sin phi) * (s * sin phi) <= (q * D) * (q * D)).
    { replace (q * D * (q * D)) with (q * q * (D * D)) by ring. rewrite HD.
      assert (sin phi * sin phi * a <= q * q * a) by (apply Rmult_le_compat_r; lra). unfold a in *. lra. }
    assert (q * D <= 0) by nra. set (X := s * sin phi) in *. set (Y := q * D) in *. clearbody X Y.
    destruct (Rle_lt_dec Y X); [lra|]. nra. }
  assert (Et : a * t * t + b * t + c = 0).
  { assert (AT : a * t = - q * sin phi - s * D) by (unfold t; field; lra).
    assert (a * (a * t * t + b * t + c) = 0); [|apply Rmult_integral in H0; lra].
    transitivity ((a * t) * (a * t) + b * (a * t) + a * c); [ring|]. rewrite AT. unfold b, c.
    transitivity (s * s * (D * D) - q * q * sin phi * sin phi + a * (sin phi * sin phi - s * s)); [ring|].
    rewrite HD. unfold a. ring. }
  exists t. split; [exact Et|]. pose proof (root_bound t Et) as Bt. apply root_sq in Et.
  assert (T2 : 0 <= 1 - t * t) by nra. pose proof (sqrt_sqrt _ T2) as SS. pose proof (sqrt_pos (1 - t * t)) as SP.
  set (u := sqrt (1 - t * t)) in *. rewrite <- SS in Et.
  assert (F : (s * u - (sin phi + q * t)) * (s * u + (sin phi + q * t)) = 0) by lra.
  apply Rmult_integral in F as [F|F]; [lra|].
  (* signs agree, so both sides are zero *)
  assert (s * (sin phi + q * t) * a = s * s * (s * sin phi - q * D)) by (rewrite Rmult_assoc, R; ring).
  assert (0 <= s * (sin phi + q * t)).
  { apply Rmult_le_reg_r with a; [exact Ha|]. rewrite Rmult_0_l, H0. apply Rmult_le_pos; [apply Rle_0_sqr|exact G]. }
  assert (sin phi + q * t = - (s * u)) by lra. rewrite H2 in H1.
  assert (s * s * u = 0) by (assert (0 <= s * s * u) by (apply Rmult_le_pos; [apply Rle_0_sqr|exact SP]); lra).
  assert (s * u = 0). { apply Rmult_integral in H3 as [H3|H3]; [apply Rmult_integral in H3; assert (s = 0) by tauto; subst; rewrite H4; ring|rewrite H3; ring]. }
  lra.
Qed.

Lemma center_rotation : exists Z X,
  rot_matrices_center phi pa target source = rotation_is (o2b_matrix Z X pa) /\ 0 <= cos X /\
  m3v (o2b_matrix Z X pa) source = target.
Proof.
  destruct q_reach as [Hq Hs]. assert (Ha : 0 < a) by (unfold a; nra).
  unfold rot_matrices_center. rewrite unit3_spec by (try reflexivity; rewrite source_mag; lra). rewrite source_mag.
  fold r_o. fold p q s. fold a b c.
  destruct good_root as (t & Rt & Et). pose proof (root_bound t Rt) as Bt.
  destruct (exact_candidate t Bt Et) as (m & Cm & Em).
  assert (Disc : 0 <= b * b - 4 * a * c).
  { replace (b * b - 4 * a * c) with ((2 * a * t + b) ^ 2 - 4 * a * (a * t * t + b * t + c)) by ring.
    rewrite Rt, Rmult_0_r, Rminus_0_r. apply pow2_ge_0. }
  assert (Q : exists t1 t2, quadratic_roots a b c = Some (Num t1, t2) /\ a * t1 * t1 + b * t1 + c = 0 /\ (t = t1 \/ Num t = t2)).
  { destruct (Req_dec b 0) as [Eb|Eb].
    - destruct (Req_dec c 0) as [Ec|Ec].
      + exists 0, NaN. rewrite Eb, Ec, quadratic_double_zero by lra. split; [reflexivity|]. split; [ring|]. left.
        rewrite Eb, Ec in Rt. assert (T : t * t = 0) by (apply Rmult_eq_reg_l with a; lra). apply Rmult_integral in T. tauto.
      + destruct (quadratic_some a b c) as (r1 & r2 & E & Sol); [lra|auto| |].
        { exact Disc. }
        exists r1, (Num r2). split; [exact E|]. split; [apply Sol; auto|]. apply Sol in Rt as [->| ->]; auto.
    - destruct (quadratic_some a b c) as (r1 & r2 & E & Sol); [lra|auto| |].
      { exact Disc. }
      exists r1, (Num r2). split; [exact E|]. split; [apply Sol; auto|]. apply Sol in Rt as [->| ->]; auto. }
  destruct Q as (t1 & t2 & E & R1 & T12). rewrite E.
  assert (B1 := root_bound t1 R1).
  assert (N1 : exists m1, candidate pa r_o (Num t1) = Some m1).
  { unfold candidate, nasin. rewrite !Rle_bool_true by lra. cbn [andb]. eauto. }
  destruct N1 as (m1 & N1).
  destruct (choose_exact target source (candidate pa r_o (Num t1)) (candidate pa r_o t2)) as (m' & Ch & Or & Ex).
  - reflexivity.
  - congruence.
  - exists m. split; [|exact Em]. destruct T12 as [->|<-]; auto.
  - rewrite Ch.
    assert (Form : forall u, candidate pa r_o u = Some m' -> exists Z X, m' = o2b_matrix Z X pa /\ 0 <= cos X).
    { intros u. unfold candidate. destruct u as [|w]; [discriminate|]. unfold nasin.
      destruct (Rle_bool_spec (-1) w); [|discriminate]. destruct (Rle_bool_spec w 1); [|discriminate]. cbn [andb].
      intros HJ. injection HJ as <-. do 2 eexists. split; [reflexivity|]. rewrite cos_asin by lra. apply sqrt_pos. }
    destruct Or as [Or|Or]; destruct (Form _ Or) as (Z & X & -> & HX); eauto.
Qed.
End Center.
