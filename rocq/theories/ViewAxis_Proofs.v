(** Lemmas about views given by the latitude and longitude at the optical axis,
    and about single pixels: C42, C45, C78-C82. *)
From Coq Require Import List ZArith Reals Lra Lia Bool.
From Flocq Require Import Core BinarySingleNaN.
From Verif Require Import Base BaseFacts Flt FltFacts Num LinAlg_Model Maths_Model Maths_Spec Maths_Proofs LinAlg_Proofs
  Spheroid_Model Spheroid_Spec Spheroid_Proofs View_Model View_Spec View_Proofs ViewRot_Proofs ViewConv_Proofs.
Import ListNotations.
Open Scope R_scope.

Lemma atan2_0 x : (0 < x -> atan2 0 x = 0) /\ (x < 0 -> atan2 0 x = PI) /\ sin (atan2 0 x) = 0.
Proof.
  unfold atan2. replace (0 / x) with 0 by (unfold Rdiv; ring). rewrite atan_0, (Rle_bool_true 0 0) by lra.
  destruct (Rlt_bool_spec 0 x); [repeat split; intros; try lra; apply sin_0|].
  destruct (Rlt_bool_spec x 0).
  - repeat split; intros; try lra. rewrite Rplus_0_l. apply sin_PI.
  - rewrite !(Rlt_bool_false 0 0) by lra. repeat split; intros; try lra. apply sin_0.
Qed.

(** The matrix found never turns the optical axis out of the observer's
    meridian plane. *)
Definition in_meridian_plane (m : matrix) (pa : R) : Prop :=
  exists Z X, m = o2b_matrix Z X pa /\ sin Z = 0.

Lemma meridian_axis m pa d : in_meridian_plane m pa -> vget (m3v m [0; d; 0]) 0 = 0.
Proof.
  intros (Z & X & -> & S). rewrite o2b_apply by reflexivity. unfold RotZ, RotX, RotY, vget. cbn [nth]. rewrite S. ring.
Qed.

Lemma axis_plane pa y z OA m : rot_matrices_axis pa [0; y; z] OA = rotation_is m -> in_meridian_plane m pa.
Proof.
  unfold rot_matrices_axis. destruct (unit3 OA); [|discriminate]. unfold choose.
  set (m1 := o2b_matrix _ (asin _) pa). set (m2 := o2b_matrix _ (PI - asin _) pa). intros E.
  assert (M : m = m1 \/ m = m2).
  { destruct (nlt _ _) in E; injection E as <-; auto. }
  destruct M as [->| ->]; do 2 eexists; (split; [reflexivity|]); apply atan2_0.
Qed.

Section AxisRotation.
Context (phi pa range a b d : R).
Hypothesis Hphi : - (PI / 2) <= phi <= PI / 2.
Hypothesis Hrange : 0 < range.
Hypothesis Hd : 0 < d.
Hypothesis Hab : a * a + b * b = 1.
Hypothesis Hfront : 0 < cos phi * a - sin phi * b.
Local Definition rb : vector := [0; - range * cos phi; range * sin phi].

Lemma axis_rotation : exists X,
  rot_matrices_axis pa rb [0; a * d; b * d] = rotation_is (o2b_matrix 0 X pa) /\
  m3v (o2b_matrix 0 X pa) [0; d; 0] = [0; a * d; b * d] /\ cos X = a /\ sin X = - b.
Proof.
  assert (Mg : mag3 [0; a * d; b * d] = d).
  { unfold mag3, vget. cbn [nth]. replace (0 * 0 + a * d * (a * d) + b * d * (b * d)) with (d * d * (a * a + b * b)) by ring.
    rewrite Hab, Rmult_1_r. apply sqrt_square. lra. }
  set (th := asin (- b)).
  assert (Hb : -1 <= - b <= 1) by nra.
  assert (Sth : sin th = - b) by (apply sin_asin; lra).
  assert (Cth : cos th = Rabs a).
  { unfold th. rewrite cos_asin by lra. replace (1 - Rsqr (- b)) with (Rsqr a) by (unfold Rsqr; lra). apply sqrt_Rsqr_abs. }
  assert (Cpi : cos (PI - th) = - Rabs a).
  { replace (PI - th) with (- th + PI) by ring. rewrite neg_cos, cos_neg, Cth. ring. }
  unfold rot_matrices_axis. rewrite unit3_spec by (try reflexivity; rewrite Mg; lra). rewrite Mg.
  assert (Dp : dot_product [0; 0; 1] (vscale [0; a * d; b * d] (/ d)) = b).
  { unfold dot_product, vscale. cbn. field. lra. }
  rewrite Dp. fold th.
  assert (Y1 : vget (RotX (- th) rb) 1 = - range * (cos phi * Rabs a - sin phi * b)).
  { unfold RotX, rb, vget. cbn [nth]. rewrite cos_neg, sin_neg, Sth, Cth. ring. }
  assert (Y2 : vget (RotX (- (PI - th)) rb) 1 = range * (cos phi * Rabs a + sin phi * b)).
  { unfold RotX, rb, vget. cbn [nth]. rewrite cos_neg, sin_neg, sin_PI_x, Cpi, Sth. ring. }
  assert (X1 : vget (RotX (- th) rb) 0 = 0) by reflexivity. assert (X2 : vget (RotX (- (PI - th)) rb) 0 = 0) by reflexivity.
  rewrite X1, X2, Y1, Y2.
  assert (Cp : 0 <= cos phi) by (apply cos_ge_0; lra).
  assert (Z1 : atan2 0 (- (- range * (cos phi * Rabs a - sin phi * b))) = 0).
  { apply atan2_0. assert (0 < range * (cos phi * Rabs a - sin phi * b)); [|lra]. apply Rmult_lt_0_compat; [exact Hrange|].
    assert (a <= Rabs a) by apply Rle_abs. assert (cos phi * a <= cos phi * Rabs a) by (now apply Rmult_le_compat_l). lra. }
  rewrite Z1.
  assert (Ap : forall X, m3v (o2b_matrix 0 X pa) [0; d; 0] = [0; d * cos X; - d * sin X]).
  { intros X. rewrite o2b_apply by reflexivity. unfold RotZ, RotX, RotY, vget. cbn [nth]. rewrite sin_0, cos_0. elements; ring. }
  destruct (Rle_lt_dec 0 a) as [Ha|Ha].
  - rewrite Rabs_pos_eq in * by exact Ha. exists th.
    assert (Ex : m3v (o2b_matrix 0 th pa) [0; d; 0] = [0; a * d; b * d]) by (rewrite Ap, Cth, Sth; elements; ring).
    split; [|auto]. unfold choose, candidate_error. rewrite Ex.
    replace (mag3 (vsub [0; a * d; b * d] [0; a * d; b * d])) with 0
      by (symmetry; apply mag3_diff_zero; reflexivity).
    unfold nlt. cbn [a_lt ar_num num_lt]. rewrite Rlt_bool_false by apply sqrt_pos. reflexivity.
  - rewrite Rabs_left in * by exact Ha. exists (PI - th).
    assert (Z2 : atan2 0 (- (range * (cos phi * - a + sin phi * b))) = 0).
    { apply atan2_0. assert (0 < range * (cos phi * a - sin phi * b)) by (now apply Rmult_lt_0_compat). lra. }
    rewrite Z2.
    assert (Ex : m3v (o2b_matrix 0 (PI - th) pa) [0; d; 0] = [0; a * d; b * d]) by (rewrite Ap, Cpi, sin_PI_x, Sth; elements; ring).
    split; [|rewrite Cpi, sin_PI_x, Sth; repeat split; [exact Ex|lra]].
    unfold choose, candidate_error. rewrite Ex.
    replace (mag3 (vsub [0; a * d; b * d] [0; a * d; b * d])) with 0
      by (symmetry; apply mag3_diff_zero; reflexivity).
    unfold nlt. cbn [a_lt ar_num num_lt]. rewrite Rlt_bool_true; [reflexivity|].
    assert (P : 0 <= mag3 (vsub [0; a * d; b * d] (m3v (o2b_matrix 0 th pa) [0; d; 0]))) by apply sqrt_pos.
    destruct P as [P|P]; [exact P|exfalso]. symmetry in P. apply mag3_diff_zero in P; [|reflexivity|apply m3v_vec].
    rewrite Ap, Cth in P. injection P as P _. nra.
Qed.
End AxisRotation.

Lemma north_image v Z X pa : v_b2o v = transpose 3 3 (o2b_matrix Z X pa) ->
  north_in_image v = (- (cos X * sin pa), cos X * cos pa).
Proof.
  intros E. unfold north_in_image. rewrite E.
  replace [0; 0; 1] with (m3v (o2b_matrix Z X pa) [- (cos X * sin pa); - sin X; cos X * cos pa]).
  - rewrite (proj2 (orthogonal_apply _ [- (cos X * sin pa); - sin X; cos X * cos pa] (o2b_orthogonal Z X pa) eq_refl)). reflexivity.
  - rewrite o2b_apply by reflexivity. unfold RotZ, RotX, RotY, vget. cbn [nth]. rewrite cos_neg, sin_neg.
    assert (P : cos X * (sin pa * sin pa + cos pa * cos pa) = cos X) by (rewrite trig1; ring).
    assert (Q : - (cos X * sin pa) * - sin pa + cos X * cos pa * cos pa = cos X) by lra.
    rewrite Q. elements; [ring|ring|]. pose proof (trig1 X). lra.
Qed.

Section Axis.
Context (pro : bool) (eq pol : R) (g : geom ar_num) (term : bool) (corr : correction) (samples lines : Z)
  (sub_lat sub_lon range os ol lat_c lon_c pa : R).
Hypothesis G : axis_given eq pol g samples lines sub_lat sub_lon range os ol lat_c lon_c pa.

Local Definition l0 : R := if pro then sub_lon - lon_c else - (sub_lon - lon_c).
Local Definition r0 : R := centric_radius eq pol lat_c.
Local Definition p0 : vector := [r0 * cos lat_c * sin l0; - r0 * cos lat_c * cos l0; r0 * sin lat_c].
Local Definition ob : vector := [0; - range * cos sub_lat; range * sin sub_lat].

Lemma resolved : exists kpp fp, resolve_km_per_pixel g (Num os) (Num ol) = Ok (kpp, fp) /\
  ((exists k, g km_per_pixel_ = Num k /\ kpp = Num k /\ 0 < k /\ fp = NaN) \/
   (g km_per_pixel_ = NaN /\ exists f, fp = Num f /\ 0 < f)).
Proof.
  destruct G as [_ _ _ _ _ _ _ _ _ _ _ _ Res]. unfold resolve_km_per_pixel.
  destruct Res as [(k & E & P)|(E & f & s & Ef & Es & Pf & Ps)]; rewrite E; cbn [num_isnan negb].
  - exists (Num k), NaN. split; [reflexivity|]. left. exists k. auto.
  - rewrite Ef, Es. cbn [num_isnan orb].
    exists (ndiv (g range_) (nhypot3 (nsub (Num os) (g sample_center_)) (nmul (Num f) (Num s)) (nsub (Num ol) (g line_center_)))), (Num (f * s)).
    split; [reflexivity|]. right. split; [reflexivity|].
    exists (f * s). split; [reflexivity|now apply Rmult_lt_0_compat].
Qed.

Lemma os_ol : (if num_isnan (g OA_s_) then ndiv (Num (IZR samples)) (Num 2) else g OA_s_) = Num os /\
  (if num_isnan (g OA_l_) then ndiv (Num (IZR lines)) (Num 2) else g OA_l_) = Num ol.
Proof.
  destruct G as [_ _ _ _ _ _ _ Hos Hol _ _ _ _].
  split; [destruct Hos as [->|[-> ->]]|destruct Hol as [->|[-> ->]]]; try reflexivity;
    unfold ndiv; cbn [num_isnan a_div ar_num num_div num2]; rewrite Req_bool_false by lra; reflexivity.
Qed.

(** Whatever the longitude. *)
Lemma finalize_axis_inv v : finalize_setup pro eq pol g term corr samples lines = Ok (Some v) ->
  v_prograde v = pro /\ v_eq v = eq /\ v_pol v = pol /\ v_sub_lat v = sub_lat /\ v_sub_lon v = sub_lon /\ v_range v = range /\
  v_range_b v = observer v /\ v_OA_s v = os /\ v_OA_l v = ol /\ v_correction v = corr /\
  v_sample_center v = g sample_center_ /\ v_line_center v = g line_center_ /\
  in_meridian_plane (v_o2b v) pa /\ v_b2o v = transpose 3 3 (v_o2b v) /\
  (g km_per_pixel_ = NaN -> exists f, v_focal_length_pixels v = Num f /\ 0 < f).
Proof.
  unfold finalize_setup. destruct os_ol as [-> ->]. destruct resolved as (kpp & fp & -> & K). cbn [bind].
  destruct G as [Hr Hs Hs' Hl Hra Ho Hp _ _ Hla _ Hlo Res]. rewrite Hs, Hl, Hra, Hp, Hla, Hlo. cbn [num_isnan orb].
  destruct (unit3 _) as [OA_hat|]; [|discriminate].
  destruct (rot_matrices_axis _ _ _) eqn:E.
  - exfalso. unfold rot_matrices_axis in E. destruct (unit3 _) in E; [|discriminate]. unfold choose in E.
    destruct (nlt _ _) in E; discriminate.
  - discriminate.
  - cbn [matrices]. intros HJ. injection HJ as <-. cbn [v_prograde v_eq v_pol v_sub_lat v_sub_lon v_range v_range_b v_OA_s v_OA_l
      v_correction v_sample_center v_line_center v_o2b v_b2o v_focal_length_pixels].
    repeat (split; [reflexivity|]). split; [unfold observer; cbn [v_range v_sub_lat]; elements; ring|].
    repeat (split; [reflexivity|]). split; [eapply axis_plane; exact E|]. split; [reflexivity|].
    intros N. destruct K as [(k & E' & -> & Pk & ->)|(_ & f & -> & Pf)]; [congruence|]. cbn [num_isnan]. eauto.
Qed.

Lemma meridian_orthogonal m : in_meridian_plane m pa -> orthogonal m.
Proof. intros (Z & X & -> & _). apply o2b_orthogonal. Qed.

(** Off the observer's meridian the given point misses the optical axis. *)
Lemma axis_missed v x z : corr = null_correction ->
  finalize_setup pro eq pol g term corr samples lines = Ok (Some v) -> g km_per_pixel_ = NaN ->
  cos lat_c <> 0 -> sin (sub_lon - lon_c) <> 0 ->
  latlon2pix v lat_c lon_c = Some (Num x, Num z) -> (x, z) <> (os, ol).
Proof.
  intros Ecorr F N Hc Hs L E. injection E as -> ->.
  apply finalize_axis_inv in F as (Ep & Ee & El & _ & Esl & _ & Er & Eos & Eol & Ec & _ & _ & Mp & Eb & Ef).
  destruct (Ef N) as (f & Ff & Pf). rewrite Ecorr in Ec.
  assert (Vis : is_visible v lat_c lon_c = true).
  { unfold latlon2pix in L. destruct (is_visible v lat_c lon_c); [reflexivity|discriminate]. }
  set (w := m3v (v_b2o v) (vsub (surface_point v lat_c lon_c) (observer v))).
  assert (W1 : vget w 1 <> 0).
  { intros Z. unfold latlon2pix in L. rewrite Vis, Er in L. cbn [negb] in L.
    replace [centric_radius (v_eq v) (v_pol v) lat_c * cos lat_c * sin (if v_prograde v then v_sub_lon v - lon_c else lon_c - v_sub_lon v);
      - centric_radius (v_eq v) (v_pol v) lat_c * cos lat_c * cos (if v_prograde v then v_sub_lon v - lon_c else lon_c - v_sub_lon v);
      centric_radius (v_eq v) (v_pol v) lat_c * sin lat_c] with (surface_point v lat_c lon_c) in L
      by (unfold surface_point; elements; ring).
    fold w in L. rewrite Z in L. unfold nmul, ndiv in L. cbn [a_mul a_div ar_num num_div num2] in L.
    rewrite !Req_bool_true in L by reflexivity. cbn [num2] in L. discriminate. }
  rewrite (latlon2pix_eq v lat_c lon_c Vis Er Ec W1 f Ff) in L. fold w in L. injection L as L0 L2.
  assert (Z0 : vget w 0 = 0).
  { assert (Q : vget w 0 / vget w 1 * f = 0) by lra. apply Rmult_integral in Q as [Q|Q]; [|lra].
    apply Rmult_integral in Q as [Q|Q]; [exact Q|]. now apply Rinv_neq_0_compat in W1. }
  assert (Z2 : vget w 2 = 0).
  { assert (Q : vget w 2 / vget w 1 * f = 0) by lra. apply Rmult_integral in Q as [Q|Q]; [|lra].
    apply Rmult_integral in Q as [Q|Q]; [exact Q|]. now apply Rinv_neq_0_compat in W1. }
  assert (Ew : w = [0; vget w 1; 0]).
  { apply (vec_ext 3); [apply m3v_vec|reflexivity|]. intros [|[|[|i]]] Hi; try lia; [exact Z0|reflexivity|exact Z2]. }
  assert (Back : m3v (v_o2b v) w = vsub (surface_point v lat_c lon_c) (observer v)).
  { unfold w. rewrite Eb. apply orthogonal_apply; [now apply meridian_orthogonal|reflexivity]. }
  apply (f_equal (fun u => vget u 0)) in Back. rewrite Ew, (meridian_axis _ pa) in Back by exact Mp.
  assert (Sx : vget (vsub (surface_point v lat_c lon_c) (observer v)) 0 =
    centric_radius eq pol lat_c * cos lat_c * sin (if pro then sub_lon - lon_c else lon_c - sub_lon)).
  { rewrite <- Ep, <- Ee, <- El, <- Esl. unfold surface_point, observer, vsub, map2, vget. cbn [combine map nth fst snd]. ring. }
  rewrite Sx in Back.
  assert (Pr : 0 < centric_radius eq pol lat_c) by (apply radius_pos; apply G).
  assert (Hs' : sin (if pro then sub_lon - lon_c else lon_c - sub_lon) <> 0).
  { destruct pro; [exact Hs|]. replace (lon_c - sub_lon) with (- (sub_lon - lon_c)) by ring. rewrite sin_neg. lra. }
  symmetry in Back. apply Rmult_integral in Back as [Back|Back]; [|tauto].
  apply Rmult_integral in Back as [Back|Back]; lra.
Qed.

(** On the observer's meridian it is on the optical axis. *)
Lemma axis_hit : same_angle lon_c sub_lon ->
  exists v, finalize_setup pro eq pol g term corr samples lines = Ok (Some v) /\
    (corr = null_correction -> is_visible v lat_c lon_c = true -> latlon2pix v lat_c lon_c = Some (Num os, Num ol)) /\
    exists c D, 0 < D /\ c * D = range * cos sub_lat - r0 * cos lat_c /\
      north_in_image v = (- (c * sin pa), c * cos pa).
Proof.
  intros (k & Ek).
  assert (S0 : sin l0 = 0 /\ cos l0 = 1).
  { assert (A : sin (sub_lon - lon_c) = 0 /\ cos (sub_lon - lon_c) = 1).
    { replace (sub_lon - lon_c) with (0 + 2 * IZR (- k) * PI) by (rewrite opp_IZR, Ek; ring).
      destruct (Z_le_gt_dec 0 (- k)) as [Hk|Hk].
      - rewrite <- (Z2Nat.id (- k)) by lia. rewrite <- INR_IZR_INZ, sin_period, cos_period. split; [apply sin_0|apply cos_0].
      - assert (P : 0 = (0 + 2 * IZR (- k) * PI) + 2 * INR (Z.to_nat k) * PI).
        { rewrite INR_IZR_INZ, Z2Nat.id by lia. rewrite opp_IZR. ring. }
        rewrite <- (sin_period _ (Z.to_nat k)), <- (cos_period _ (Z.to_nat k)), <- P. split; [apply sin_0|apply cos_0]. }
    unfold l0. destruct pro; [exact A|]. now rewrite sin_neg, cos_neg, (proj1 A), Ropp_0, (proj2 A). }
  destruct G as [Hr Hs Hs' Hl Hra Ho Hp _ _ Hla Hlar Hlo Res].
  assert (Pr : 0 < r0 <= eq).
  { split; [apply radius_pos; tauto|apply (radius_between eq pol); tauto]. }
  set (oy := - r0 * cos lat_c + range * cos sub_lat). set (oz := r0 * sin lat_c - range * sin sub_lat).
  assert (EOA : vsub p0 ob = [0; oy; oz]).
  { unfold p0, ob, vsub, map2. cbn [combine map fst snd]. destruct S0 as [-> ->]. unfold oy, oz. elements; ring. }
  (* range_b . OA' < 0 *)
  assert (Front : 0 < cos sub_lat * oy - sin sub_lat * oz).
  { replace (cos sub_lat * oy - sin sub_lat * oz)
      with (range * (sin sub_lat * sin sub_lat + cos sub_lat * cos sub_lat) - r0 * (cos sub_lat * cos lat_c + sin sub_lat * sin lat_c))
      by (unfold oy, oz; ring).
    rewrite trig1, <- cos_minus. pose proof (COS_bound (sub_lat - lat_c)). nra. }
  set (D := mag3 [0; oy; oz]).
  assert (D2 : D * D = oy * oy + oz * oz) by (unfold D; rewrite mag3_sq; unfold vget; cbn [nth]; ring).
  assert (HD : 0 < D).
  { assert (0 <= D) by apply sqrt_pos. destruct H as [H|H]; [exact H|]. rewrite <- H in D2.
    assert (oy = 0) by nra. assert (oz = 0) by nra. rewrite H0, H1 in Front. lra. }
  set (a := oy / D). set (b := oz / D).
  assert (Hab : a * a + b * b = 1).
  { unfold a, b. transitivity ((oy * oy + oz * oz) / (D * D)); [field; lra|]. rewrite <- D2. field. lra. }
  assert (Hf : 0 < cos sub_lat * a - sin sub_lat * b).
  { replace (cos sub_lat * a - sin sub_lat * b) with ((cos sub_lat * oy - sin sub_lat * oz) / D) by (unfold a, b; field; lra).
    now apply Rdiv_lt_0_compat. }
  set (d := range * (cos sub_lat * a - sin sub_lat * b)). assert (Hd : 0 < d) by (apply Rmult_lt_0_compat; lra).
  destruct (axis_rotation sub_lat pa range a b d) as (X & ER & Em & CX & SX); try assumption; try lra.
  change (rb sub_lat range) with ob in ER. set (m := o2b_matrix 0 X pa) in *.
  assert (Eunit : vscale [0; oy; oz] (/ D) = [0; a; b]).
  { unfold vscale. cbn [map]. unfold a, b. elements; unfold Rdiv; ring. }
  assert (Edp : dot_product p0 [0; a; b] = D - d).
  { transitivity (- r0 * cos lat_c * a + r0 * sin lat_c * b).
    - unfold dot_product, p0. cbn [combine fold_left fst snd]. destruct S0 as [-> ->]. ring.
    - assert (D = oy * a + oz * b).
      { unfold a, b. transitivity ((oy * oy + oz * oz) / D); [rewrite <- D2; field; lra|field; lra]. }
      rewrite H at 1. unfold d, oy, oz. ring. }
  assert (EAx : vsub [0; oy; oz] (vscale [0; a; b] (D - d)) = [0; a * d; b * d]).
  { unfold vsub, vscale, map2. cbn [map combine fst snd]. unfold a, b. elements; field; lra. }
  assert (Orth : orthogonal m) by apply o2b_orthogonal.
  (* the point in observer coordinates *)
  assert (Ew : m3v (transpose 3 3 m) [0; oy; oz] = [0; D; 0]).
  { replace [0; oy; oz] with (m3v m [0; D; 0]); [apply orthogonal_apply; [exact Orth|reflexivity]|].
    replace [0; D; 0] with (vscale [0; d; 0] (D / d)) by (unfold vscale; cbn [map]; elements; field; lra).
    rewrite m3v_scale by reflexivity. rewrite Em. unfold vscale. cbn [map]. unfold a, b. elements; field; lra. }
  destruct resolved as (kpp & fp & RK & K).
  assert (FS : exists v, finalize_setup pro eq pol g term corr samples lines = Ok (Some v) /\
      v_o2b v = m /\ exists f, v_focal_length_pixels v = Num f).
  { unfold finalize_setup. destruct os_ol as [-> ->]. rewrite RK. cbn [bind]. rewrite Hs, Hl, Hra, Hp, Hla, Hlo. cbn [num_isnan orb].
    fold l0 r0 p0 ob. rewrite EOA. rewrite unit3_spec by (try reflexivity; fold D; lra). fold D. rewrite Eunit, Edp, EAx, ER.
    cbn [matrices]. eexists. split; [reflexivity|]. split; [reflexivity|]. cbn [v_focal_length_pixels].
    destruct K as [(k' & _ & -> & Pk & ->)|(_ & f & -> & Pf)]; cbn [num_isnan]; [|eauto].
    unfold ndiv. cbn [a_div ar_num num_div num2]. rewrite Req_bool_false by lra. eauto. }
  destruct FS as (v & F & Eo & f & Ff). exists v. split; [exact F|].
  pose proof (finalize_axis_inv v F) as (Ep & Ee & El & Esb & Esl & Eran & Er & Eos & Eol & Ec & _ & _ & Mp & Eb & Ef).
  split; [|exists a, D; split; [exact HD|]; split; [unfold a; transitivity oy; [field; lra|unfold oy; ring]|];
           rewrite <- CX; apply (north_image v 0 X pa); rewrite Eb, Eo; reflexivity].
  intros Ecorr Vis. rewrite Ecorr in Ec.
  assert (Ed : vsub (surface_point v lat_c lon_c) (observer v) = [0; oy; oz]).
  { rewrite <- EOA. unfold surface_point, observer. rewrite Ep, Ee, El, Esl, Eran, Esb. fold r0.
    replace (if pro then sub_lon - lon_c else lon_c - sub_lon) with l0 by (unfold l0; destruct pro; ring).
    unfold p0, ob, vsub, map2. cbn [combine map fst snd]. elements; ring. }
  assert (Ew' : m3v (v_b2o v) (vsub (surface_point v lat_c lon_c) (observer v)) = [0; D; 0]) by (rewrite Ed, Eb, Eo; exact Ew).
  pose proof (latlon2pix_eq v lat_c lon_c Vis Er Ec) as L. rewrite Ew' in L. rewrite (L (Rgt_not_eq _ _ HD) f Ff).
  unfold vget. cbn [nth]. rewrite Eos, Eol. do 2 f_equal; f_equal; unfold Rdiv; ring.
Qed.
End Axis.

(** ** Body center *)

Lemma center_pixel v kpp n sc lc : aimed v kpp n sc lc -> v_correction v = null_correction ->
  v_eq v < v_range v -> is_visible v (v_sub_lat v) (v_sub_lon v) = true ->
  latlon2pix v (v_sub_lat v) (v_sub_lon v) = Some (Num sc, Num lc) /\
  0 < vget (m3v (v_b2o v) (vsub (surface_point v (v_sub_lat v) (v_sub_lon v)) (observer v))) 1.
Proof.
  intros A Hc Hr Vis. pose proof (orth_back _ _ _ _ _ A) as B. destruct A as (Hrad & Hk & Hn & Ek & Esc & Elc & Ef & O & Eb & Er & E).
  set (r := centric_radius (v_eq v) (v_pol v) (v_sub_lat v)).
  assert (Pr : 0 < r < v_range v).
  { split; [apply radius_pos; tauto|]. assert (r <= v_eq v) by (apply (radius_between (v_eq v) (v_pol v)); tauto). lra. }
  set (t := r / v_range v - 1).
  assert (Ht : t < 0).
  { unfold t. assert (r / v_range v < 1); [|lra]. apply Rmult_lt_reg_r with (v_range v); [lra|]. unfold Rdiv. rewrite Rmult_assoc, Rinv_l by lra. lra. }
  assert (Ed : vsub (surface_point v (v_sub_lat v) (v_sub_lon v)) (observer v) = vscale (observer v) t).
  { unfold surface_point, observer, vsub, vscale, map2. cbn [combine map fst snd]. fold r. rewrite !sub_self.
    replace (if v_prograde v then 0 else 0) with 0 by (now destruct (v_prograde v)). rewrite sin_0, cos_0. unfold t. elements; field; lra. }
  assert (Ew : m3v (v_b2o v) (vsub (surface_point v (v_sub_lat v) (v_sub_lon v)) (observer v)) =
    [(v_OA_s v - sc) * kpp * t; - n * t; (lc - v_OA_l v) * kpp * t]).
  { rewrite Ed, m3v_scale by reflexivity. rewrite <- Er, B. reflexivity. }
  pose proof (latlon2pix_eq v _ _ Vis Er Hc) as L. cbv zeta in L. rewrite Ew in *. unfold vget in *. cbn [nth] in *.
  assert (Pn : 0 < - n * t) by nra. split; [|exact Pn].
  rewrite (L (Rgt_not_eq _ _ Pn) _ Ef). do 2 f_equal; f_equal; field; repeat split; lra.
Qed.

(** The projection of the pole of a body on the optical axis. *)
Lemma pole_pixel v kpp n sc lc Z X pa : aimed v kpp n sc lc -> v_correction v = null_correction ->
  v_eq v < n -> v_b2o v = transpose 3 3 (o2b_matrix Z X pa) -> 0 <= cos X -> sc = v_OA_s v -> lc = v_OA_l v ->
  is_visible v (PI / 2) (v_sub_lon v) = true ->
  exists t, 0 <= t /\ latlon2pix v (PI / 2) (v_sub_lon v) = Some (Num (sc - t * sin pa), Num (lc - t * cos pa)).
Proof.
  intros A Hc Hn Eb' HX Hs Hl Vis. pose proof (in_front v kpp n sc lc (PI / 2) (v_sub_lon v) A Hn) as W1.
  pose proof (orth_back _ _ _ _ _ A) as B. destruct A as (Hrad & Hk & Hn' & Ek & Esc & Elc & Ef & O & Eb & Er & E).
  pose proof (latlon2pix_eq v _ _ Vis Er Hc) as L. cbv zeta in L.
  set (w := m3v (v_b2o v) (vsub (surface_point v (PI / 2) (v_sub_lon v)) (observer v))) in *.
  assert (Ep : surface_point v (PI / 2) (v_sub_lon v) = vscale [0; 0; 1] (v_pol v)).
  { unfold surface_point, vscale. cbn [map]. rewrite cos_PI2, sin_PI2. destruct (radius_ends (v_eq v) (v_pol v)) as (_ & -> & _); try tauto.
    elements; ring. }
  assert (N := north_image v Z X pa Eb'). unfold north_in_image in N. injection N as N0 N2.
  assert (Ew : vget w 0 = - (v_pol v * (cos X * sin pa)) /\ vget w 2 = v_pol v * (cos X * cos pa)).
  { unfold w. rewrite Ep, m3v_sub, m3v_scale by reflexivity. rewrite <- Er, B. unfold vsub.
    rewrite !(map2_get Rminus _ _ 3) by (try reflexivity; lia). rewrite !vscale_get, N0, N2. unfold vget. cbn [nth].
    rewrite Hs, Hl. split; ring. }
  destruct Ew as [E0 E2].
  exists (v_pol v * cos X / vget w 1 * (n / kpp)). split.
  - apply Rmult_le_pos; [|apply Rlt_le, Rdiv_lt_0_compat; lra]. apply Rmult_le_pos; [apply Rmult_le_pos; lra|].
    apply Rlt_le, Rinv_0_lt_compat. exact W1.
  - rewrite (L (Rgt_not_eq _ _ W1) _ Ef), E0, E2, <- Hs, <- Hl. do 2 f_equal; f_equal; field; repeat split; lra.
Qed.

(** ** Visibility *)

Lemma visible_iff v lat lon limit : 0 < v_pol v <= v_eq v -> - (PI / 2) <= lat <= PI / 2 -> v_mu_limit v = Num limit ->
  let p := spherical (centric_radius (v_eq v) (v_pol v) lat) lat lon in
  let emission := angle_cosine (gradient (v_eq v) (v_pol v) p) (minus3 (spherical (v_range v) (v_sub_lat v) (v_sub_lon v)) p) in
  is_visible v lat lon = true <->
  limit < emission /\
  (v_use_terminator v = true -> exists sl so, v_sub_solar_lat v = Num sl /\ v_sub_solar_lon v = Num so /\
     0 < angle_cosine (gradient (v_eq v) (v_pol v) p) (spherical 1 sl so)).
Proof.
  intros Hr Hl Em. cbv zeta. rewrite <- mu_is_cosine by tauto. unfold is_visible. rewrite Em. unfold nlt. cbn [a_lt ar_num num_lt].
  rewrite andb_true_iff. set (e := mu _ _ _ _ _ _ _).
  assert (E : Rlt_bool limit e = true <-> limit < e) by (destruct (Rlt_bool_spec limit e); split; intros; (reflexivity || discriminate || lra)).
  rewrite E. apply and_iff_compat_l. destruct (v_use_terminator v); cbn [negb orb].
  - split.
    + intros H _. destruct (v_sub_solar_lat v) as [|sl]; [discriminate|]. destruct (v_sub_solar_lon v) as [|so]; [discriminate|].
      exists sl, so. repeat split. rewrite <- mu0_is_cosine by tauto. now destruct (Rlt_bool_spec 0 (mu0 (v_eq v) (v_pol v) sl so lat lon)).
    + intros H. destruct (H eq_refl) as (sl & so & -> & -> & H0). rewrite <- mu0_is_cosine in H0 by tauto. now rewrite Rlt_bool_true.
  - split; [discriminate|reflexivity].
Qed.

Lemma latlon2pix_visible v lat lon : latlon2pix v lat lon = None <-> is_visible v lat lon = false.
Proof.
  unfold latlon2pix. destruct (is_visible v lat lon); cbn [negb]; [|tauto].
  destruct (nmul _ _); [|destruct (nmul _ _)]; try destruct (object_to_image _ _ _); split; discriminate.
Qed.

(** ** Lens *)

Lemma gll_axis_shift v lat lon : latlon2pix (with_correction v null_correction) lat lon = Some (Num 400, Num 400) ->
  v_OA_s v = 400 -> v_OA_l v = 400 ->
  exists x z, latlon2pix (with_correction v (gll_correction 800)) lat lon = Some (Num x, Num z) /\ x < 400 /\ 400 < z.
Proof.
  intros H Hs Hl. unfold latlon2pix in *. cbn [with_correction v_correction v_OA_s v_OA_l] in *. rewrite Hs, Hl in *.
  change (is_visible (with_correction v null_correction) lat lon) with (is_visible v lat lon) in H.
  change (is_visible (with_correction v (gll_correction 800)) lat lon) with (is_visible v lat lon).
  destruct (is_visible v lat lon); [|discriminate]. cbn [negb] in *. cbn [with_correction v_eq v_pol v_prograde v_sub_lon v_range_b v_b2o v_focal_length_pixels] in *.
  destruct (nmul _ _) as [|x]; [discriminate|]. destruct (nmul _ _) as [|z]; [discriminate|].
  cbn [null_correction object_to_image] in H. injection H as Hx Hz. assert (x = 0) by lra. assert (z = 0) by lra. subst.
  pose proof dist_pos. unfold gll_correction, object_to_image, gll_object_to_image. change (summation_mode 800) with false. cbv iota zeta.
  unfold OA_LINE, OA_SAMPLE. eexists. eexists. split; [reflexivity|]. lra.
Qed.

(** ** Pixels *)

Lemma no_center v x z : v_sample_center v = NaN -> pix2latlon v x z = UB ub_assert.
Proof. intros E. unfold pix2latlon. now rewrite E. Qed.

Definition body_pixel (v : view) (i k : nat) : bool :=
  match pix2latlon v (INR i) (INR k) with Ok (Some _) => true | _ => false end.

Lemma upd_nth {A} (l : list A) : forall i x j d, (i < length l)%nat ->
  nth j (upd l i x) d = if Nat.eqb j i then x else nth j l d.
Proof.
  induction l as [|a l IH]; intros [|i] x [|j] d H; cbn in *; try lia; try reflexivity. apply IH. lia.
Qed.

Section Mask.
Context (v : view) (s lns : nat).
Hypothesis Hsize : (Z.of_nat s * Z.of_nat lns < size_mod)%Z.
Local Definition pixel_ok (i k : nat) : Prop := exists r, pix2latlon v (INR i) (INR k) = Ok r.

Lemma mask_index k i : (k < lns)%nat -> (i < s)%nat ->
  wrap (wrap (Z.of_nat k * Z.of_nat s) + Z.of_nat i) = Z.of_nat (k * s + i) /\ (k * s + i < s * lns)%nat.
Proof.
  intros Hk Hi. assert (B : (k * s + i < s * lns)%nat) by nia. split; [|exact B].
  assert (P : (0 <= Z.of_nat k * Z.of_nat s < size_mod)%Z) by (split; nia).
  unfold wrap. rewrite (Z.mod_small (Z.of_nat k * Z.of_nat s)) by exact P. rewrite Z.mod_small; nia.
Qed.

Lemma mask_row k : (k < lns)%nat -> forall is, (forall i, In i is -> (i < s)%nat) -> (forall i, In i is -> pixel_ok i k) ->
  forall mask, length mask = (s * lns)%nat ->
  exists mask', fold_left (mask_pixel v (Z.of_nat s) k) is (Ok mask) = Ok mask' /\ length mask' = (s * lns)%nat /\
    forall j, nth j mask' false = nth j mask false || existsb (fun i => (j =? k * s + i)%nat && body_pixel v i k) is.
Proof.
  intros Hk. induction is as [|i is IH]; intros Hi Hp mask Hl; cbn [fold_left].
  - exists mask. repeat split; auto. intros j. cbn. now rewrite orb_false_r.
  - assert (S : exists mask1, mask_pixel v (Z.of_nat s) k (Ok mask) i = Ok mask1 /\ length mask1 = (s * lns)%nat /\
      forall j, nth j mask1 false = nth j mask false || ((j =? k * s + i)%nat && body_pixel v i k)).
    { destruct (Hp i (or_introl eq_refl)) as (r & E). unfold mask_pixel, body_pixel. rewrite E. cbn [bind].
      destruct r as [c|].
      - destruct (mask_index k i Hk (Hi i (or_introl eq_refl))) as [Ei B]. rewrite Ei, Hl.
        replace (Z.of_nat (k * s + i) <? Z.of_nat (s * lns))%Z with true by (symmetry; apply Z.ltb_lt; lia).
        eexists. split; [reflexivity|]. rewrite upd_length. split; [exact Hl|]. intros j. rewrite Nat2Z.id, upd_nth by lia.
        destruct (j =? k * s + i)%nat; [now rewrite orb_true_r|now rewrite orb_false_r].
      - exists mask. repeat split; auto. intros j. now rewrite andb_false_r, orb_false_r. }
    destruct S as (mask1 & -> & L1 & N1).
    destruct (IH (fun i Hin => Hi i (or_intror Hin)) (fun i Hin => Hp i (or_intror Hin)) mask1 L1) as (mask' & F & L' & N').
    exists mask'. split; [exact F|]. split; [exact L'|]. intros j. rewrite N', N1. cbn [existsb]. now rewrite orb_assoc.
Qed.

Lemma mask_rows ks : (forall k, In k ks -> (k < lns)%nat) -> (forall k i, In k ks -> (i < s)%nat -> pixel_ok i k) ->
  forall mask, length mask = (s * lns)%nat ->
  exists mask', fold_left (fun acc k => fold_left (mask_pixel v (Z.of_nat s) k) (seq 0 s) acc) ks (Ok mask) = Ok mask' /\
    length mask' = (s * lns)%nat /\
    forall j, nth j mask' false = nth j mask false ||
      existsb (fun k => existsb (fun i => (j =? k * s + i)%nat && body_pixel v i k) (seq 0 s)) ks.
Proof.
  induction ks as [|k ks IH]; intros Hk Hp mask Hl; cbn [fold_left].
  - exists mask. repeat split; auto. intros j. cbn. now rewrite orb_false_r.
  - destruct (mask_row k (Hk k (or_introl eq_refl)) (seq 0 s)) with (mask := mask) as (m1 & -> & L1 & N1); auto.
    + intros i Hi. apply in_seq in Hi. lia.
    + intros i Hi. apply in_seq in Hi. apply Hp; [now left|lia].
    + destruct (IH (fun k Hin => Hk k (or_intror Hin)) (fun k i Hin => Hp k i (or_intror Hin)) m1 L1) as (m' & F & L' & N').
      exists m'. split; [exact F|]. split; [exact L'|]. intros j. rewrite N', N1. cbn [existsb]. now rewrite orb_assoc.
Qed.

Lemma bad_row k is (acc : outcome (list bool)) : (forall m, acc <> Ok m) ->
  forall m, fold_left (mask_pixel v (Z.of_nat s) k) is acc <> Ok m.
Proof.
  revert acc. induction is as [|i is IH]; intros acc H m; cbn [fold_left]; [apply H|]. apply IH. intros m'.
  destruct acc as [a|e|u]; cbn; [|discriminate|discriminate]. now destruct (H a).
Qed.
Lemma bad_rows ks (acc : outcome (list bool)) : (forall m, acc <> Ok m) ->
  forall m, fold_left (fun acc k => fold_left (mask_pixel v (Z.of_nat s) k) (seq 0 s) acc) ks acc <> Ok m.
Proof.
  revert acc. induction ks as [|k ks IH]; intros acc H m; cbn [fold_left]; [apply H|]. apply IH. now apply bad_row.
Qed.

Lemma row_needs k is : forall acc m, fold_left (mask_pixel v (Z.of_nat s) k) is acc = Ok m -> forall i, In i is -> pixel_ok i k.
Proof.
  induction is as [|i is IH]; intros acc m H j; [intros []|]. cbn [fold_left] in H. intros [<-|Hj]; [|now apply (IH _ _ H)].
  destruct (pix2latlon v (INR i) (INR k)) as [r|e|u] eqn:E; [now exists r|exfalso|exfalso]; revert H; apply bad_row; intros m';
    unfold mask_pixel; destruct acc; cbn [bind]; try discriminate; rewrite E; discriminate.
Qed.
Lemma rows_need ks : forall acc m, fold_left (fun acc k => fold_left (mask_pixel v (Z.of_nat s) k) (seq 0 s) acc) ks acc = Ok m ->
  forall k i, In k ks -> (i < s)%nat -> pixel_ok i k.
Proof.
  induction ks as [|k ks IH]; intros acc m H k' i; [intros []|]. cbn [fold_left] in H. intros [<-|Hk] Hi; [|now apply (IH _ _ H)].
  destruct (fold_left (mask_pixel v (Z.of_nat s) k) (seq 0 s) acc) as [r|e|u] eqn:E.
  - apply (row_needs _ _ _ _ E). apply in_seq. lia.
  - exfalso. revert H. apply bad_rows. discriminate.
  - exfalso. revert H. apply bad_rows. discriminate.
Qed.

Lemma body_mask_spec :
  ((exists mask, body_mask v (Z.of_nat s) (Z.of_nat lns) = Ok mask) <-> (forall i k, (i < s)%nat -> (k < lns)%nat -> pixel_ok i k)) /\
  forall mask, body_mask v (Z.of_nat s) (Z.of_nat lns) = Ok mask ->
    length mask = (s * lns)%nat /\
    forall i k, (i < s)%nat -> (k < lns)%nat ->
      (nth (k * s + i) mask false = true <-> exists lat lon, pix2latlon v (INR i) (INR k) = Ok (Some (lat, lon))).
Proof.
  unfold body_mask. rewrite !Nat2Z.id.
  replace (Z.to_nat (wrap (Z.of_nat s * Z.of_nat lns))) with (s * lns)%nat by (unfold wrap; rewrite Z.mod_small by nia; lia).
  assert (All : (forall i k, (i < s)%nat -> (k < lns)%nat -> pixel_ok i k) ->
    exists mask', fold_left (fun acc k => fold_left (mask_pixel v (Z.of_nat s) k) (seq 0 s) acc) (seq 0 lns) (Ok (repeat false (s * lns))) = Ok mask' /\
    length mask' = (s * lns)%nat /\
    forall j, nth j mask' false = existsb (fun k => existsb (fun i => (j =? k * s + i)%nat && body_pixel v i k) (seq 0 s)) (seq 0 lns)).
  { intros H. destruct (mask_rows (seq 0 lns)) with (mask := repeat false (s * lns)) as (m & F & L & N).
    - intros k Hk. apply in_seq in Hk. lia.
    - intros k i Hk Hi. apply in_seq in Hk. apply H; lia.
    - apply repeat_length.
    - exists m. split; [exact F|]. split; [exact L|]. intros j. rewrite N, nth_repeat. reflexivity. }
  assert (Need : forall mask, fold_left (fun acc k => fold_left (mask_pixel v (Z.of_nat s) k) (seq 0 s) acc) (seq 0 lns) (Ok (repeat false (s * lns))) = Ok mask ->
    forall i k, (i < s)%nat -> (k < lns)%nat -> pixel_ok i k).
  { intros mask F i k Hi Hk. apply (rows_need _ _ _ F); [apply in_seq; lia|exact Hi]. }
  split.
  - split; [intros (m & F); eauto|]. intros H. destruct (All H) as (m & F & _). eauto.
  - intros mask F. destruct (All (Need _ F)) as (m & F' & L & N). rewrite F in F'. injection F' as <-. split; [exact L|].
    intros i k Hi Hk. rewrite N. rewrite existsb_exists. split.
    + intros (k' & Hk' & E). apply existsb_exists in E as (i' & Hi' & E). apply in_seq in Hk', Hi'.
      apply andb_prop in E as [E P]. apply Nat.eqb_eq in E.
      assert (k = k' /\ i = i').
      { assert (i = (k * s + i) mod s /\ k = (k * s + i) / s)%nat.
        { split; [rewrite Nat.add_comm, Nat.mod_add, Nat.mod_small; lia|rewrite Nat.div_add_l, Nat.div_small; lia]. }
        assert (i' = (k' * s + i') mod s /\ k' = (k' * s + i') / s)%nat.
        { split; [rewrite Nat.add_comm, Nat.mod_add, Nat.mod_small; lia|rewrite Nat.div_add_l, Nat.div_small; lia]. }
        rewrite E in H. intuition congruence. }
      destruct H as [-> ->]. unfold body_pixel in P. destruct (pix2latlon v (INR i') (INR k')) as [[[la lo]|]| |]; try discriminate. eauto.
    + intros (la & lo & E). exists k. split; [apply in_seq; lia|]. apply existsb_exists. exists i. split; [apply in_seq; lia|].
      rewrite Nat.eqb_refl. unfold body_pixel. rewrite E. reflexivity.
Qed.
End Mask.

(** ** Views as set up *)

Section Center.
Context (pro : bool) (eq pol : R) (g : geom ar_num) (term : bool) (samples lines : Z)
  (sub_lat sub_lon range kpp os ol sc lc pa : R).
Hypothesis C : center_given eq pol g samples lines sub_lat sub_lon range kpp os ol sc lc pa.
Hypothesis Hreach : offset kpp os ol sc lc <= range * cos sub_lat.
Hypothesis Hfront : eq * eq + offset kpp os ol sc lc * offset kpp os ol sc lc < range * range.

Lemma center_view corr : exists v n X Z, finalize_setup pro eq pol g term corr samples lines = Ok (Some v) /\
  aimed v kpp n sc lc /\ v_eq v < n /\ 0 <= cos X /\ v_b2o v = transpose 3 3 (o2b_matrix Z X pa) /\
  v_prograde v = pro /\ v_eq v = eq /\ v_pol v = pol /\ v_sub_lat v = sub_lat /\ v_sub_lon v = sub_lon /\ v_range v = range /\
  v_mu_limit v = g mu_limit_ /\ v_correction v = corr /\ v_OA_s v = os /\ v_OA_l v = ol /\ v_use_terminator v = term.
Proof.
  assert (R : 0 < range) by apply C. assert (Re : 0 < pol <= eq) by apply C.
  assert (O0 : 0 <= offset kpp os ol sc lc).
  { apply Rmult_le_pos; [|apply sqrt_pos]. apply Rlt_le, C. }
  destruct (finalize_center pro eq pol g term corr samples lines sub_lat sub_lon range kpp os ol sc lc pa C) as (Z & X & n & HX & Hn & N2 & F & A);
    [nra|exact Hreach|].
  set (v := View _ _ _ _ _ _ _ _ _ _ _ _ _ _ _ _ _ _ _ _ _) in *.
  exists v, n, X, Z. split; [exact F|]. split; [exact A|]. split; [|repeat split; (exact HX || reflexivity)].
  change (eq < n). nra.
Qed.

Lemma center_roundtrip : exists v, finalize_setup pro eq pol g term null_correction samples lines = Ok (Some v) /\
  forall m, g mu_limit_ = Num m -> 0 <= m -> forall lat lon, - (PI / 2) <= lat <= PI / 2 -> is_visible v lat lon = true ->
  exists x z lon', latlon2pix v lat lon = Some (Num x, Num z) /\ pix2latlon v x z = Ok (Some (Num lat, lon')) /\
    (cos lat <> 0 -> same_angle lon' (if pro then lon else lon - 2 * sub_lon)).
Proof.
  destruct (center_view null_correction) as (v & n & X & Z & F & A & Hn & HX & Eb & Ep & Ee & El & Esa & Eso & Er & Em & Ec & Eos & Eol & Et).
  exists v. split; [exact F|]. intros m Hm Pm lat lon Hl Vis.
  destruct (roundtrip v kpp n sc lc lat lon m A Ec Hl) as (x & z & lon' & L & P & S); [congruence|exact Pm|exact Vis|now apply (in_front v kpp n sc lc)|].
  exists x, z, lon'. rewrite <- Ep, <- Eso. auto.
Qed.

Lemma center_center : exists v, finalize_setup pro eq pol g term null_correction samples lines = Ok (Some v) /\
  (is_visible v sub_lat sub_lon = true -> latlon2pix v sub_lat sub_lon = Some (Num sc, Num lc)).
Proof.
  destruct (center_view null_correction) as (v & n & X & Z & F & A & Hn & HX & Eb & Ep & Ee & El & Esa & Eso & Er & Em & Ec & Eos & Eol & Et).
  exists v. split; [exact F|]. intros Vis. rewrite <- Esa, <- Eso in Vis |- *.
  apply (center_pixel v kpp n sc lc A Ec); [|exact Vis]. rewrite Ee, Er.
  assert (0 <= offset kpp os ol sc lc * offset kpp os ol sc lc) by apply Rle_0_sqr. assert (0 < range) by apply C. assert (0 < pol <= eq) by apply C. nra.
Qed.

Lemma center_north : exists v, finalize_setup pro eq pol g term null_correction samples lines = Ok (Some v) /\ north_at v pa /\
  (sc = os -> lc = ol -> is_visible v (PI / 2) sub_lon = true ->
   exists t, 0 <= t /\ latlon2pix v (PI / 2) sub_lon = Some (Num (sc - t * sin pa), Num (lc - t * cos pa))).
Proof.
  destruct (center_view null_correction) as (v & n & X & Z & F & A & Hn & HX & Eb & Ep & Ee & El & Esa & Eso & Er & Em & Ec & Eos & Eol & Et).
  exists v. split; [exact F|]. split.
  - exists (cos X). split; [exact HX|]. now apply (north_image v Z X pa).
  - rewrite <- Eso. intros Es Eo Vis. apply (pole_pixel v kpp n sc lc Z X pa); congruence.
Qed.
End Center.

Section AxisViews.
Context (pro : bool) (eq pol : R) (g : geom ar_num) (term : bool) (samples lines : Z)
  (sub_lat sub_lon range os ol lat_c lon_c pa : R).
Hypothesis G : axis_given eq pol g samples lines sub_lat sub_lon range os ol lat_c lon_c pa.
Local Notation setup := (finalize_setup pro eq pol g term null_correction samples lines).

Lemma axis_on_meridian : same_angle lon_c sub_lon ->
  exists v, setup = Ok (Some v) /\ (is_visible v lat_c lon_c = true -> latlon2pix v lat_c lon_c = Some (Num os, Num ol)).
Proof.
  intros S. destruct (axis_hit pro eq pol g term null_correction samples lines sub_lat sub_lon range os ol lat_c lon_c pa G S) as (v & F & H & _).
  exists v. auto.
Qed.

Lemma axis_north : same_angle lon_c sub_lon -> centric_radius eq pol lat_c * cos lat_c <= range * cos sub_lat ->
  exists v, setup = Ok (Some v) /\ north_at v pa.
Proof.
  intros S L. destruct (axis_hit pro eq pol g term null_correction samples lines sub_lat sub_lon range os ol lat_c lon_c pa G S) as (v & F & _ & c & D & HD & E & N).
  exists v. split; [exact F|]. exists c. split; [|exact N]. unfold r0 in E. assert (0 <= c * D) by lra.
  destruct (Rle_lt_dec 0 c); [assumption|]. nra.
Qed.

Lemma axis_upside_down : same_angle lon_c sub_lon -> range * cos sub_lat < centric_radius eq pol lat_c * cos lat_c ->
  exists v, setup = Ok (Some v) /\ north_at v (pa + PI) /\ ~ north_at v pa.
Proof.
  intros S L. destruct (axis_hit pro eq pol g term null_correction samples lines sub_lat sub_lon range os ol lat_c lon_c pa G S) as (v & F & _ & c & D & HD & E & N).
  exists v. split; [exact F|]. unfold r0 in E. assert (Hc : c < 0) by (assert (c * D < 0) by lra; destruct (Rlt_le_dec c 0); [assumption|]; nra).
  split.
  - exists (- c). split; [lra|]. rewrite N, neg_sin, neg_cos. f_equal; ring.
  - intros (c' & Hc' & N'). rewrite N in N'. injection N' as E1 E2. pose proof (trig1 pa).
    assert ((c - c') * sin pa = 0) by lra. assert ((c - c') * cos pa = 0) by lra.
    apply Rmult_integral in H0, H1. destruct H0 as [H0|H0]; [lra|]. destruct H1 as [H1|H1]; [lra|]. rewrite H0, H1 in H. lra.
Qed.

Lemma axis_off_meridian v x z : setup = Ok (Some v) -> g km_per_pixel_ = NaN ->
  cos lat_c <> 0 -> sin (sub_lon - lon_c) <> 0 ->
  latlon2pix v lat_c lon_c = Some (Num x, Num z) -> (x, z) <> (os, ol).
Proof. apply (axis_missed pro eq pol g term null_correction samples lines sub_lat sub_lon range os ol lat_c lon_c pa G). reflexivity. Qed.

Lemma axis_mask v s n : setup = Ok (Some v) -> g sample_center_ = NaN -> (0 < s)%nat -> (0 < n)%nat ->
  (Z.of_nat s * Z.of_nat n < size_mod)%Z ->
  (forall x z, pix2latlon v x z = UB ub_assert) /\ ~ exists mask, body_mask v (Z.of_nat s) (Z.of_nat n) = Ok mask.
Proof.
  intros F N Hs Hn B. apply (finalize_axis_inv pro eq pol g term null_correction samples lines sub_lat sub_lon range os ol lat_c lon_c pa G) in F
    as (_ & _ & _ & _ & _ & _ & _ & _ & _ & _ & Esc & _). rewrite N in Esc.
  split; [intros; now apply no_center|]. intros H0. pose proof (proj1 (proj1 (body_mask_spec v s n B)) H0) as H.
  destruct (H 0%nat 0%nat Hs Hn) as (r & E). rewrite no_center in E by exact Esc. discriminate.
Qed.
End AxisViews.

(** ** A unit sphere seen from distance 3 *)

Definition unit_geom (sub_lat sub_lon os ol sc lc : R) (m : member) : num :=
  match m with
  | sub_observ_lat_ => Num sub_lat | sub_observ_lon_ => Num sub_lon | position_angle_ => Num 0
  | range_ => Num 3 | km_per_pixel_ => Num 1 | OA_s_ => Num os | OA_l_ => Num ol
  | sample_center_ => Num sc | line_center_ => Num lc | mu_limit_ => Num 0
  | _ => NaN
  end.

Lemma unit_center s : center_given 1 1 (unit_geom 0 s 0 0 0 0) 1 1 0 s 3 1 0 0 0 0 0.
Proof. pose proof PI_RGT_0. constructor; auto; try reflexivity; lra. Qed.

Lemma unit_offset : offset 1 0 0 0 0 = 0.
Proof. unfold offset. replace ((0 - 0) ^ 2 + (0 - 0) ^ 2) with 0 by ring. rewrite sqrt_0. ring. Qed.

Lemma unit_radius lat : centric_radius 1 1 lat = 1.
Proof. assert (H := radius_between 1 1 Rlt_0_1 (Rle_refl 1) lat). lra. Qed.
Lemma unit_graphic lat : - (PI / 2) <= lat <= PI / 2 -> graphic_latitude 1 1 lat = lat.
Proof.
  intros H. destruct (latitudes 1 1 Rlt_0_1 (Rle_refl 1) lat H) as (_ & _ & O1 & O2 & P).
  assert (E : forall x, centric_latitude 1 1 x = graphic_latitude 1 1 x) by reflexivity.
  destruct (Rle_lt_dec 0 lat) as [L|L].
  - specialize (P L). rewrite E in P. lra.
  - destruct (latitudes 1 1 Rlt_0_1 (Rle_refl 1) (- lat)) as (_ & _ & _ & _ & P'); [lra|]. rewrite E, O2 in P'. lra.
Qed.

Lemma unit_visible v lat lon : v_eq v = 1 -> v_pol v = 1 -> v_range v = 3 -> v_mu_limit v = Num 0 -> v_use_terminator v = false ->
  - (PI / 2) <= lat <= PI / 2 ->
  1 < 3 * (sin (v_sub_lat v) * sin lat + cos (v_sub_lat v) * cos lat * cos (v_sub_lon v - lon)) ->
  is_visible v lat lon = true.
Proof.
  intros E P R M T H V. unfold is_visible. rewrite E, P, R, M, T. unfold nlt. cbn [a_lt ar_num num_lt negb orb]. rewrite andb_true_r.
  unfold mu. rewrite unit_radius, unit_graphic by exact H. rewrite sub_self, cos_0. apply Rlt_bool_true.
  set (c := sin (v_sub_lat v) * sin lat + cos (v_sub_lat v) * cos lat * cos (v_sub_lon v - lon)) in *.
  replace (3 * sin (v_sub_lat v) * sin lat - 1 * 1 + 3 * cos (v_sub_lat v) * cos lat * cos (v_sub_lon v - lon)) with (3 * c - 1) by (unfold c; ring).
  apply Rdiv_lt_0_compat; [lra|]. apply sqrt_lt_R0.
  assert (c <= 1); [|lra]. unfold c. pose proof (trig1 (v_sub_lat v)). pose proof (trig1 lat). pose proof (COS_bound (v_sub_lon v - lon)).
  set (k := cos (v_sub_lon v - lon)) in *. set (s1 := sin (v_sub_lat v)) in *. set (c1 := cos (v_sub_lat v)) in *.
  set (s2 := sin lat) in *. set (c2 := cos lat) in *. clearbody k s1 c1 s2 c2.
  assert (0 <= (s1 - s2) * (s1 - s2)) by apply Rle_0_sqr. assert (0 <= (c1 - c2 * k) * (c1 - c2 * k)) by apply Rle_0_sqr.
  assert (0 <= c2 * c2 * (1 - k * k)) by (apply Rmult_le_pos; [apply Rle_0_sqr|nra]). lra.
Qed.

(** Pole-on view, body center off the optical axis: the code finds no rotation and
    carries on with null matrices. *)
Lemma pole_on_view term : exists v,
  center_given 1 1 (unit_geom (PI / 2) 0 1 0 0 1) 1 1 (PI / 2) 0 3 1 1 0 0 1 0 /\
  finalize_setup true 1 1 (unit_geom (PI / 2) 0 1 0 0 1) term null_correction 1 1 = Ok (Some v) /\
  forall lat lon, is_visible v lat lon = true -> latlon2pix v lat lon = Some (NaN, NaN).
Proof.
  eexists. split.
  - pose proof PI_RGT_0. constructor; auto; try reflexivity; lra.
  - unfold finalize_setup, resolve_km_per_pixel. cbn [unit_geom num_isnan negb bind orb]. unfold nmul, nsub.
    cbn [a_mul a_sub ar_num num2].
    set (mg := mag3 _).
    assert (M2 : mg * mg = 2) by (unfold mg; rewrite mag3_sq; unfold vget; cbn [nth]; ring).
    assert (M0 : 0 <= mg) by apply sqrt_pos.
    set (sq := (3 - mg) * (3 + mg)). assert (Q : sq = 7) by (unfold sq; lra). rewrite Q. rewrite Rlt_bool_false by lra.
    assert (Rn : rot_matrices_center (PI / 2) 0 [0; - (3) * cos (PI / 2); 3 * sin (PI / 2)] [(1 - 0) * 1; - sqrt 7; (1 - 0) * 1] = no_rotation).
    { unfold rot_matrices_center. assert (S7 : sqrt 7 * sqrt 7 = 7) by (apply sqrt_sqrt; lra).
      assert (M3 : mag3 [(1 - 0) * 1; - sqrt 7; (1 - 0) * 1] = 3).
      { unfold mag3, vget. cbn [nth]. replace (((1 - 0) * 1) * ((1 - 0) * 1) + - sqrt 7 * - sqrt 7 + ((1 - 0) * 1) * ((1 - 0) * 1)) with (3 * 3) by lra.
        apply sqrt_square. lra. }
      rewrite unit3_spec by (try reflexivity; rewrite M3; lra). rewrite M3.
      set (ro := RotY (- 0) _).
      assert (E1 : vget ro 1 = - sqrt 7 / 3) by reflexivity.
      assert (E2 : vget ro 2 = 1 / 3).
      { unfold ro, RotY, vscale, vget. cbn [map nth]. rewrite Ropp_0, sin_0, cos_0. field. }
      rewrite E1, E2, sin_PI2.
      match goal with |- context [quadratic_roots ?a ?b ?c] => replace (quadratic_roots a b c) with (@None (num * num)); [reflexivity|] end.
      symmetry. apply quadratic_none. lra. }
    rewrite Rn. cbn [matrices]. split; [reflexivity|]. intros lat lon Vis. unfold latlon2pix. rewrite Vis. cbn [negb v_b2o].
    set (o := vsub _ _).
    assert (Z : forall i, vget (m3v zero_matrix o) i = 0).
    { intros [|[|[|[|i]]]]; cbn; try reflexivity; ring. }
    rewrite !Z. unfold nmul, ndiv. cbn [a_mul a_div ar_num num_div num2]. rewrite !Req_bool_true by reflexivity. reflexivity.
Qed.

(** Visible point of a retrograde body whose longitude is not restored. *)
Lemma retrograde_view : exists v,
  center_given 1 1 (unit_geom 0 (PI / 2) 0 0 0 0) 1 1 0 (PI / 2) 3 1 0 0 0 0 0 /\
  finalize_setup false 1 1 (unit_geom 0 (PI / 2) 0 0 0 0) false null_correction 1 1 = Ok (Some v) /\
  is_visible v 0 (PI / 2) = true /\
  latlon2pix v 0 (PI / 2) = Some (Num 0, Num 0) /\
  exists lon', pix2latlon v 0 0 = Ok (Some (Num 0, lon')) /\ ~ same_angle lon' (PI / 2).
Proof.
  pose proof PI_RGT_0 as PI0.
  assert (R : offset 1 0 0 0 0 <= 3 * cos 0) by (rewrite unit_offset, cos_0; lra).
  assert (Fr : 1 * 1 + offset 1 0 0 0 0 * offset 1 0 0 0 0 < 3 * 3) by (rewrite unit_offset; lra).
  destruct (center_view false 1 1 _ false 1 1 0 (PI / 2) 3 1 0 0 0 0 0 (unit_center (PI / 2)) R Fr null_correction)
    as (v & n & X & Z & F & A & Hn & HX & Eb & Ep & Ee & El & Esa & Eso & Er & Em & Ec & Eos & Eol & Et).
  destruct (center_center false 1 1 _ false 1 1 0 (PI / 2) 3 1 0 0 0 0 0 (unit_center (PI / 2)) R Fr) as (v' & F' & Cc).
  rewrite F in F'. injection F' as <-.
  assert (Vis : is_visible v 0 (PI / 2) = true).
  { apply unit_visible; auto; [lra|]. rewrite Esa, Eso, sub_self, sin_0, cos_0. lra. }
  exists v. split; [apply unit_center|]. split; [exact F|]. split; [exact Vis|].
  rewrite (Cc Vis). split; [reflexivity|].
  destruct (center_roundtrip false 1 1 _ false 1 1 0 (PI / 2) 3 1 0 0 0 0 0 (unit_center (PI / 2)) R Fr) as (v' & F' & RT).
  rewrite F in F'. injection F' as <-. destruct (RT 0 eq_refl (Rle_refl 0) 0 (PI / 2)) as (x & z & lon' & L & P & S); [lra|exact Vis|].
  rewrite (Cc Vis) in L. injection L as <- <-. exists lon'. split; [exact P|].
  destruct S as (k & Ek); [rewrite cos_0; lra|]. intros (k' & Ek').
  assert (E : PI * (2 * IZR k - 2 * IZR k' - 1) = 0) by lra. apply Rmult_integral in E as [E|E]; [lra|].
  rewrite <- !mult_IZR, <- !minus_IZR in E. apply eq_IZR in E. lia.
Qed.

(** The same body seen prograde, from longitude 0. *)
Lemma unit_view : exists v, finalize_setup true 1 1 (unit_geom 0 0 0 0 0 0) false null_correction 1 1 = Ok (Some v) /\
  v_eq v = 1 /\ v_pol v = 1 /\ v_mu_limit v = Num 0 /\
  is_visible v 0 0 = true /\ latlon2pix v 0 0 = Some (Num 0, Num 0) /\
  exists lon, pix2latlon v 0 0 = Ok (Some (Num 0, lon)).
Proof.
  pose proof PI_RGT_0.
  assert (R : offset 1 0 0 0 0 <= 3 * cos 0) by (rewrite unit_offset, cos_0; lra).
  assert (Fr : 1 * 1 + offset 1 0 0 0 0 * offset 1 0 0 0 0 < 3 * 3) by (rewrite unit_offset; lra).
  destruct (center_view true 1 1 _ false 1 1 0 0 3 1 0 0 0 0 0 (unit_center 0) R Fr null_correction)
    as (v & n & X & Z & F & A & Hn & HX & Eb & Ep & Ee & El & Esa & Eso & Er & Em & Ec & Eos & Eol & Et).
  destruct (center_center true 1 1 _ false 1 1 0 0 3 1 0 0 0 0 0 (unit_center 0) R Fr) as (v' & F' & Cc).
  rewrite F in F'. injection F' as <-.
  assert (Vis : is_visible v 0 0 = true).
  { apply unit_visible; auto; [lra|]. rewrite Esa, Eso, sub_self, sin_0, cos_0. lra. }
  exists v. repeat (split; [assumption|]). split; [exact (Cc Vis)|].
  destruct (center_roundtrip true 1 1 _ false 1 1 0 0 3 1 0 0 0 0 0 (unit_center 0) R Fr) as (v' & F' & RT).
  rewrite F in F'. injection F' as <-. destruct (RT 0 eq_refl (Rle_refl 0) 0 0) as (x & z & lon' & L & P & S); [lra|exact Vis|].
  rewrite (Cc Vis) in L. injection L as <- <-. eauto.
Qed.

(** A geometry given at the optical axis. *)
Definition axis_geom (sub_lat lat_c lon_c : R) (m : member) : num :=
  match m with
  | sub_observ_lat_ => Num sub_lat | sub_observ_lon_ => Num 0 | position_angle_ => Num 0
  | range_ => Num 3 | focal_length_ => Num 1 | scale_ => Num 1 | OA_s_ => Num 0 | OA_l_ => Num 0
  | lat_at_center_ => Num lat_c | lon_at_center_ => Num lon_c | mu_limit_ => Num 0
  | _ => NaN
  end.
