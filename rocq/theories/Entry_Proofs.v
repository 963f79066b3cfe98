(** Proofs about keyword values. *)
From Coq Require Import List ZArith Bool Reals Lra Lia.
From Flocq Require Import Core BinarySingleNaN.
From Verif Require Import Base Flt FltFacts Num Maths_Model Spheroid_Model Spheroid_Proofs Proj_Model Proj_Proofs
  Params_Model Virtual_Model Virtual_Spec Virtual_Proofs VirtualPlane_Proofs Console_Proofs Entry_Model Entry_Spec.
Import ListNotations.
Open Scope R_scope.

#[local] Existing Instance prec53.
#[local] Existing Instance emax53.
Local Notation rnd := (round radix2 (SpecFloat.fexp 53 1024) ZnearestE).
#[local] Instance valid53e : Valid_exp (SpecFloat.fexp 53 1024) := fexp_correct 53 1024 eq_refl.

(** ** Angles over the reals *)

Definition num_opp : ar_num -> ar_num := num1 (fun x => Num (- x)).

Lemma le_num x y : a_le ar_num (Num x : ar_num) (Num y : ar_num) = Rle_bool x y.
Proof.
  unfold a_le. cbn [a_isnan a_lt ar_num num_isnan num_lt negb andb].
  destruct (Rle_bool_spec x y); destruct (Rlt_bool_spec y x); cbn; auto; lra.
Qed.

Lemma circle_real x : Rabs x <= 360 ->
  exists r, circle_angle (A := ar_num) num_fmod (Num x) = Num r /\ 0 <= r < 360 /\ same_direction r x.
Proof.
  intros _. unfold circle_angle. cbn [a_of_Z a_add ar_num].
  destruct (fmod_bounds x 360 ltac:(lra)) as (m & n & E & X & B).
  rewrite E, le_num. destruct (Rle_bool_spec 0 m) as [H|H].
  - exists m. split; [reflexivity|]. split; [lra|]. exists (- n)%Z. rewrite opp_IZR. lra.
  - exists (m + 360). split; [reflexivity|]. split; [lra|]. exists (1 - n)%Z. rewrite minus_IZR. lra.
Qed.

Lemma beyond_real x : beyond_circle (A := ar_num) (Num x) = Rlt_bool 360 (Rabs x).
Proof. reflexivity. Qed.

Lemma longitude_real prograde s x :
  (Rabs x <= 360 -> exists r,
     longitude (A := ar_num) num_fmod prograde s (Num x) = Parsed (Num r : ar_num) /\ 0 <= r <= 360 /\
     same_direction (eastward prograde r) (entered prograde s x)) /\
  (360 < Rabs x -> longitude (A := ar_num) num_fmod prograde s (Num x) = Rejected).
Proof.
  unfold longitude. rewrite beyond_real. split; intros H.
  - rewrite Rlt_bool_false by exact H.
    destruct (circle_real x H) as (r & E & B & n & D). rewrite E. cbn [a_of_Z a_sub ar_num num2].
    assert (K : exists r', (match s with
        | no_direction => Num r
        | East => if prograde then Num (360 - r) else Num r
        | West => if negb prograde then Num (360 - r) else Num r end) = Num r' /\ 0 <= r' <= 360 /\
        same_direction (eastward prograde r') (entered prograde s x)).
    { unfold same_direction. destruct s, prograde; cbn [negb eastward entered]; eexists; (split; [reflexivity|]); (split; [lra|]).
      - exists (- n)%Z. rewrite opp_IZR. lra.
      - exists n. lra.
      - exists (n - 1)%Z. rewrite minus_IZR. lra.
      - exists n. lra.
      - exists (- n)%Z. rewrite opp_IZR. lra.
      - exists (1 - n)%Z. rewrite minus_IZR. lra. }
    destruct K as (r' & K & B' & D'). exists r'. rewrite <- K. split; [|auto].
    destruct s, prograde; reflexivity.
  - rewrite Rlt_bool_true by exact H. reflexivity.
Qed.

Lemma position_real t x :
  (Rabs x <= 360 -> exists r,
     position_angle (A := ar_num) num_fmod t (Num x) = Parsed (Num r : ar_num) /\ 0 <= r <= 360 /\
     same_direction r (turned t x)) /\
  (360 < Rabs x -> position_angle (A := ar_num) num_fmod t (Num x) = Rejected).
Proof.
  unfold position_angle. rewrite beyond_real. split; intros H.
  - rewrite Rlt_bool_false by exact H.
    destruct (circle_real x H) as (r & E & B & n & D). rewrite E. cbn [a_of_Z a_sub ar_num num2].
    destruct t; cbn [turned].
    + exists r. split; [reflexivity|]. split; [lra|]. exists n. lra.
    + exists (360 - r). split; [reflexivity|]. split; [lra|]. exists (1 - n)%Z. rewrite minus_IZR. lra.
    + exists r. split; [reflexivity|]. split; [lra|]. exists n. lra.
  - rewrite Rlt_bool_true by exact H. reflexivity.
Qed.

(** ** Angles in doubles *)

Lemma le_double (x y : double) : is_finite x = true -> is_finite y = true ->
  a_le ar_double (x : ar_double) (y : ar_double) = Rle_bool (B2R x) (B2R y).
Proof.
  intros Fx Fy. unfold a_le. cbn [a_isnan a_lt ar_double].
  assert (is_nan x = false) as -> by (destruct x; try discriminate; reflexivity).
  assert (is_nan y = false) as -> by (destruct y; try discriminate; reflexivity).
  cbn [negb andb]. unfold flt. rewrite Bltb_correct by assumption.
  destruct (Rle_bool_spec (B2R x) (B2R y)); destruct (Rlt_bool_spec (B2R y) (B2R x)); cbn; auto; lra.
Qed.

Lemma rnd_error x : 0 <= x <= 360 -> Rabs (rnd x - x) <= bpow radix2 (-44) /\ 0 <= rnd x <= 360.
Proof.
  intros H. split.
  - eapply Rle_trans; [apply error_le_half_ulp; typeclasses eauto|].
    assert (U : ulp radix2 (SpecFloat.fexp 53 1024) x <= bpow radix2 (-43)).
    { apply Rle_trans with (ulp radix2 (SpecFloat.fexp 53 1024) (bpow radix2 9)).
      - apply ulp_le.
        + apply fexp_correct. reflexivity.
        + apply (fexp_monotone 53 1024).
        + rewrite !Rabs_pos_eq; [|apply bpow_ge_0|lra]. cbn. lra.
      - rewrite ulp_bpow. apply bpow_le. unfold SpecFloat.fexp, SpecFloat.emin. lia. }
    replace (bpow radix2 (-44)) with (/ 2 * bpow radix2 (-43)); [lra|].
    change (/ 2) with (bpow radix2 (-1)). rewrite <- bpow_plus. reflexivity.
  - split.
    + rewrite <- (rnd_int 0 ltac:(lia)). apply rnd_le. lra.
    + apply Rle_trans with (rnd 360); [apply rnd_le; lra|right; apply (rnd_int 360); lia].
Qed.

Lemma small_finite x : 0 <= rnd x <= 360 -> Rabs (rnd x) < bpow radix2 1024.
Proof.
  intros H. rewrite Rabs_pos_eq by lra. apply Rle_lt_trans with (bpow radix2 9); [cbn; lra|]. apply bpow_lt. lia.
Qed.

Lemma d360 : is_finite (double_of_Z 360) = true /\ B2R (double_of_Z 360) = 360.
Proof. apply double_of_Z_exact. lia. Qed.

Lemma circle_double fmod (x : double) : fmod_spec fmod -> is_finite x = true ->
  let r := circle_angle (A := ar_double) fmod x in
  is_finite r = true /\ 0 <= B2R r <= 360 /\ close_direction (bpow radix2 (-44)) (B2R r) (B2R x).
Proof.
  intros S F r. destruct d360 as [F3 V3]. destruct (double_of_Z_exact 0 ltac:(lia)) as [F0 V0].
  destruct (proj1 S x (double_of_Z 360) F F3) as (Fm & Bm & n & X); [lra|].
  assert (P : 0 < bpow radix2 (-44)) by apply bpow_gt_0.
  rewrite V3 in Bm, X. apply Rabs_def2 in Bm.
  unfold r, circle_angle. cbn [a_of_Z a_add ar_double].
  rewrite le_double, V0 by assumption. set (m := fmod x (double_of_Z 360)) in *.
  destruct (Rle_bool_spec 0 (B2R m)) as [H|H].
  - split; [exact Fm|]. split; [lra|]. exists (- n)%Z. rewrite opp_IZR.
    replace (B2R m - _) with 0 by lra. rewrite Rabs_R0. lra.
  - destruct (rnd_error (B2R m + 360) ltac:(lra)) as [E B].
    destruct (plus_round m (double_of_Z 360) Fm F3) as [Fr Vr]; [rewrite V3; apply small_finite; exact B|].
    rewrite V3 in Vr. split; [exact Fr|]. rewrite Vr. split; [exact B|].
    exists (1 - n)%Z. rewrite minus_IZR.
    replace (rnd (B2R m + 360) - _) with (rnd (B2R m + 360) - (B2R m + 360)) by lra. exact E.
Qed.

Lemma flip_double (v : double) : is_finite v = true -> 0 <= B2R v <= 360 ->
  let w := Bminus mode_NE (double_of_Z 360) v in
  is_finite w = true /\ 0 <= B2R w <= 360 /\ Rabs (B2R w - (360 - B2R v)) <= bpow radix2 (-44).
Proof.
  intros F H w. destruct d360 as [F3 V3]. destruct (rnd_error (360 - B2R v) ltac:(lra)) as [E B].
  pose proof (Bminus_correct 53 1024 _ _ mode_NE (double_of_Z 360) v F3 F) as C. cbn [round_mode] in C.
  rewrite V3, Rlt_bool_true in C by (apply small_finite; exact B). destruct C as (Vw & Fw & _).
  fold w in Vw, Fw. rewrite Vw. auto.
Qed.

Lemma flip_close n a b c x : Rabs (a - (x + 360 * IZR n)) <= bpow radix2 (-44) ->
  Rabs (b - (360 - a)) <= bpow radix2 (-44) -> c = - x ->
  close_direction (bpow radix2 (-43)) b c /\ close_direction (bpow radix2 (-43)) (- b) x.
Proof.
  intros H1 H2 ->.
  assert (P : bpow radix2 (-43) = 2 * bpow radix2 (-44)).
  { change 2 with (bpow radix2 1). rewrite <- bpow_plus. reflexivity. }
  apply Rabs_le_inv in H1. apply Rabs_le_inv in H2. split.
  - exists (1 - n)%Z. rewrite minus_IZR. apply Rabs_le. lra.
  - exists (n - 1)%Z. rewrite minus_IZR. apply Rabs_le. lra.
Qed.

Lemma keep_close n a x : Rabs (a - (x + 360 * IZR n)) <= bpow radix2 (-44) ->
  close_direction (bpow radix2 (-43)) a x /\ close_direction (bpow radix2 (-43)) (- a) (- x).
Proof.
  intros H.
  assert (P : bpow radix2 (-43) = 2 * bpow radix2 (-44)).
  { change 2 with (bpow radix2 1). rewrite <- bpow_plus. reflexivity. }
  assert (0 < bpow radix2 (-44)) by apply bpow_gt_0.
  apply Rabs_le_inv in H. split.
  - exists n. apply Rabs_le. lra.
  - exists (- n)%Z. rewrite opp_IZR. apply Rabs_le. lra.
Qed.

Lemma abs_double (x : double) : B2R (Babs x) = Rabs (B2R x) /\ is_finite (Babs x) = is_finite x.
Proof. split; [apply B2R_Babs|destruct x; reflexivity]. Qed.

Lemma beyond_finite (x : double) : is_finite x = true ->
  beyond_circle (A := ar_double) x = Rlt_bool 360 (Rabs (B2R x)).
Proof.
  intros F. unfold beyond_circle. cbn [a_lt a_of_Z a_abs ar_double]. unfold flt.
  destruct d360 as [F3 V3]. destruct (abs_double x) as [VA FA].
  rewrite Bltb_correct, V3, VA; [reflexivity|exact F3|now rewrite FA].
Qed.

Lemma beyond_infinite s : beyond_circle (A := ar_double) (B754_infinity s) = true.
Proof. reflexivity. Qed.

Lemma longitude_double_ok fmod : fmod_spec fmod -> forall prograde s (x : double), is_finite x = true ->
  (Rabs (B2R x) <= 360 -> exists r : double,
     longitude (A := ar_double) fmod prograde s x = Parsed (r : ar_double) /\ is_finite r = true /\
     0 <= B2R r <= 360 /\
     close_direction (bpow radix2 (-43)) (eastward prograde (B2R r)) (entered prograde s (B2R x))) /\
  (360 < Rabs (B2R x) -> longitude (A := ar_double) fmod prograde s x = Rejected).
Proof.
  intros S prograde s x F. unfold longitude. rewrite beyond_finite by exact F. split; intros H.
  - rewrite Rlt_bool_false by exact H.
    destruct (circle_double fmod x S F) as (Fv & Bv & n & Dv).
    set (v := circle_angle (A := ar_double) fmod x) in *.
    destruct (flip_double v Fv Bv) as (Fw & Bw & Dw). cbn [a_of_Z a_sub ar_double].
    destruct (keep_close n _ _ Dv) as [K1 K2].
    destruct (flip_close n _ _ _ _ Dv Dw eq_refl) as [K3 K4].
    destruct s, prograde; cbn [negb eastward entered]; eexists; repeat split; eauto; try lra.
  - rewrite Rlt_bool_true by exact H. reflexivity.
Qed.

Lemma position_double_ok fmod : fmod_spec fmod -> forall t (x : double), is_finite x = true ->
  (Rabs (B2R x) <= 360 -> exists r : double,
     position_angle (A := ar_double) fmod t x = Parsed (r : ar_double) /\ is_finite r = true /\
     0 <= B2R r <= 360 /\ close_direction (bpow radix2 (-43)) (B2R r) (turned t (B2R x))) /\
  (360 < Rabs (B2R x) -> position_angle (A := ar_double) fmod t x = Rejected).
Proof.
  intros S t x F. unfold position_angle. rewrite beyond_finite by exact F. split; intros H.
  - rewrite Rlt_bool_false by exact H.
    destruct (circle_double fmod x S F) as (Fv & Bv & n & Dv).
    set (v := circle_angle (A := ar_double) fmod x) in *.
    destruct (flip_double v Fv Bv) as (Fw & Bw & Dw). cbn [a_of_Z a_sub ar_double].
    destruct (keep_close n _ _ Dv) as [K1 K2].
    destruct (flip_close n _ _ _ _ Dv Dw eq_refl) as [K3 K4].
    destruct t; cbn [turned]; eexists; repeat split; eauto; lra.
  - rewrite Rlt_bool_true by exact H. reflexivity.
Qed.

Lemma longitude_infinite fmod prograde s sg :
  longitude (A := ar_double) fmod prograde s (B754_infinity sg : double) = Rejected.
Proof. unfold longitude. now rewrite beyond_infinite. Qed.

Lemma longitude_nan fmod : fmod_spec fmod -> forall prograde s,
  exists r : double, longitude (A := ar_double) fmod prograde s (B754_nan : double) = Parsed (r : ar_double) /\ is_nan r = true.
Proof.
  intros S prograde s. unfold longitude. change (beyond_circle (A := ar_double) B754_nan) with false. cbv iota.
  assert (N : is_nan (circle_angle (A := ar_double) fmod B754_nan) = true).
  { unfold circle_angle. cbn [a_of_Z a_add ar_double].
    pose proof (proj2 S B754_nan (double_of_Z 360) eq_refl) as N.
    destruct (fmod B754_nan (double_of_Z 360)); try discriminate. reflexivity. }
  set (v := circle_angle (A := ar_double) fmod B754_nan) in *. destruct v; try discriminate.
  exists B754_nan. cbn [a_of_Z a_sub ar_double]. split; [|reflexivity]. destruct s, prograde; reflexivity.
Qed.

(** ** Latitudes *)

Lemma le_double_nan_l (x y : double) : is_nan x = true -> a_le ar_double (x : ar_double) (y : ar_double) = false.
Proof. intros N. unfold a_le. cbn [a_isnan ar_double]. now rewrite N. Qed.
Lemma le_double_nan_r (x y : double) : is_nan y = true -> a_le ar_double (x : ar_double) (y : ar_double) = false.
Proof. intros N. unfold a_le. cbn [a_isnan ar_double]. rewrite N. cbn [negb]. now rewrite andb_false_r. Qed.

Lemma latitude_double s (x : double) :
  (forall v, is_finite x = true -> entered_latitude s (B2R x) v ->
     exists r : double, latitude_sub (A := ar_double) (Bopp (prec := 53) (emax := 1024)) s x = Parsed (r : ar_double) /\
       is_finite r = true /\ B2R r = v) /\
  (is_finite x = false \/ (forall v, ~ entered_latitude s (B2R x) v) ->
     latitude_sub (A := ar_double) (Bopp (prec := 53) (emax := 1024)) s x = Rejected).
Proof.
  destruct (double_of_Z_exact 90 ltac:(lia)) as [F9 V9]. destruct (double_of_Z_exact 0 ltac:(lia)) as [F0 V0].
  destruct (abs_double x) as [VA FA].
  unfold latitude_sub. cbn [a_of_Z a_abs ar_double]. split.
  - intros v F H.
    destruct s; cbn [entered_latitude] in H; destruct H as [H ->].
    + rewrite le_double, VA, V9, Rle_bool_true by (rewrite ?FA; auto; apply Rabs_le; lra). eauto.
    + rewrite !le_double, V0, V9, !Rle_bool_true by (auto; lra). cbn [andb]. eauto.
    + rewrite !le_double, V0, V9, !Rle_bool_true by (auto; lra). cbn [andb].
      exists (Bopp x). split; [reflexivity|]. split; [now rewrite is_finite_Bopp|apply B2R_Bopp].
  - intros H. destruct (is_finite x) eqn:F.
    + destruct H as [H|H]; [discriminate|].
      destruct s; cbn [entered_latitude] in H.
      * rewrite le_double, VA, V9 by (rewrite ?FA; auto).
        destruct (Rle_bool_spec (Rabs (B2R x)) 90) as [C|C]; [|reflexivity].
        exfalso. apply Rabs_le_inv in C. apply (H (B2R x)). split; [lra|reflexivity].
      * rewrite !le_double, V0, V9 by auto.
        destruct (Rle_bool_spec 0 (B2R x)), (Rle_bool_spec (B2R x) 90); cbn [andb]; auto.
        exfalso. apply (H (B2R x)). split; [lra|reflexivity].
      * rewrite !le_double, V0, V9 by auto.
        destruct (Rle_bool_spec 0 (B2R x)), (Rle_bool_spec (B2R x) 90); cbn [andb]; auto.
        exfalso. apply (H (- B2R x)). split; [lra|reflexivity].
    + destruct x as [|sg| |]; try discriminate; destruct s; try destruct sg; reflexivity.
Qed.

Lemma latitude_real eq pol s k x : 0 < pol -> pol <= eq ->
  (forall v, entered_latitude s x v ->
     exists r, latitude (A := ar_num) num_opp (Num (PI / 180)) (num_centric eq pol) s k (Num x) = Parsed (Num r : ar_num) /\
       -90 <= r <= 90 /\
       match k with
       | Centric => r = v
       | Graphic => graphic_latitude eq pol (r * (PI / 180)) = v * (PI / 180)
       end) /\
  ((forall v, ~ entered_latitude s x v) ->
     latitude (A := ar_num) num_opp (Num (PI / 180)) (num_centric eq pol) s k (Num x) = Rejected).
Proof.
  intros Hp He. pose proof PI_RGT_0 as PI0.
  assert (SUB : (forall v, entered_latitude s x v -> latitude_sub (A := ar_num) num_opp s (Num x) = Parsed (Num v : ar_num) /\ -90 <= v <= 90)
    /\ ((forall v, ~ entered_latitude s x v) -> latitude_sub (A := ar_num) num_opp s (Num x) = Rejected)).
  { unfold latitude_sub. cbn [a_abs a_of_Z ar_num num_abs]. rewrite !le_num. split.
    - intros v H. destruct s; cbn [entered_latitude] in H; destruct H as [H ->].
      + rewrite Rle_bool_true by (apply Rabs_le; lra). split; [reflexivity|lra].
      + rewrite !Rle_bool_true by lra. split; [reflexivity|lra].
      + rewrite !Rle_bool_true by lra. split; [reflexivity|lra].
    - intros H. destruct s; cbn [entered_latitude] in H.
      + destruct (Rle_bool_spec (Rabs x) 90) as [C|C]; [|reflexivity].
        exfalso. apply Rabs_le_inv in C. apply (H x). split; [lra|reflexivity].
      + destruct (Rle_bool_spec 0 x), (Rle_bool_spec x 90); cbn [andb]; auto.
        exfalso. apply (H x). split; [lra|reflexivity].
      + destruct (Rle_bool_spec 0 x), (Rle_bool_spec x 90); cbn [andb]; auto.
        exfalso. apply (H (- x)). split; [lra|reflexivity]. }
  destruct SUB as [SUB1 SUB2]. unfold latitude. split.
  - intros v H. destruct (SUB1 v H) as [-> B]. cbn [pbind]. destruct k.
    + exists v. auto.
    + assert (A : - (PI / 2) <= v * (PI / 180) <= PI / 2) by (split; nra).
      destruct (latitudes eq pol Hp He _ A) as (_ & G & _ & _ & _).
      set (c := centric_latitude eq pol (v * (PI / 180))) in *.
      assert (CB : - (PI / 2) <= c <= PI / 2).
      { assert (O : forall y, 0 <= y <= PI / 2 -> 0 <= centric_latitude eq pol y <= PI / 2).
        { intros y Hy. destruct (latitudes eq pol Hp He y ltac:(lra)) as (_ & _ & _ & _ & Q).
          destruct (Q (proj1 Hy)) as (Q1 & Q2 & _). lra. }
        destruct (Rle_dec 0 (v * (PI / 180))) as [P|P].
        - specialize (O (v * (PI / 180)) ltac:(lra)). fold c in O. lra.
        - specialize (O (- (v * (PI / 180))) ltac:(lra)).
          destruct (latitudes eq pol Hp He _ A) as (_ & _ & Q & _). rewrite Q in O. fold c in O. lra. }
      exists (c / (PI / 180)).
      cbn [a_mul a_div ar_num num2]. unfold num_centric, num1. unfold num_div, num2.
      rewrite Req_bool_false by lra. fold c. split; [reflexivity|].
      assert (D : c / (PI / 180) * (PI / 180) = c) by (field; lra).
      split.
      * set (d := c / (PI / 180)) in *. split; nra.
      * rewrite D. exact G.
  - intros H. rewrite (SUB2 H). reflexivity.
Qed.

(** ** Radii *)

Lemma lt_num x y : a_lt ar_num (Num x : ar_num) (Num y : ar_num) = Rlt_bool x y.
Proof. reflexivity. Qed.

Ltac rbool :=
  repeat match goal with
  | |- context [Rlt_bool ?a ?b] => destruct (Rlt_bool_spec a b); try (exfalso; lra)
  | |- context [Rle_bool ?a ?b] => destruct (Rle_bool_spec a b); try (exfalso; lra)
  end.

Lemma radii_described e eq pol : 0 < pol -> pol <= eq -> described e eq pol ->
  body_radii e = Ok (Num eq : ar_num, Num pol : ar_num).
Proof.
  intros Hp He D. unfold body_radii, radii_validate.
  destruct e as [a b|a f|b f]; cbn [described] in D; destruct D as [-> ->]; cbn [radii_of eq_rad pol_rad flattening a_of_Z ar_num];
    rewrite ?lt_num, ?le_num.
  - rbool. cbn. rewrite Rlt_bool_false by lra. reflexivity.
  - assert (F : 0 <= (eq - pol) / eq < 1).
    { split; [apply Rmult_le_pos; [lra|left; apply Rinv_0_lt_compat; lra]|].
      apply Rmult_lt_reg_r with eq; [lra|]. unfold Rdiv. rewrite Rmult_assoc, Rinv_l by lra. lra. }
    rbool. cbn -[Rminus Rdiv Rmult]. rewrite Rlt_bool_false; [|].
    + cbn [bind eq_rad pol_rad]. do 2 f_equal. f_equal. field. lra.
    + apply Rle_trans with pol; [|exact He]. right. field. lra.
  - assert (F : 0 <= (eq - pol) / eq < 1).
    { split; [apply Rmult_le_pos; [lra|left; apply Rinv_0_lt_compat; lra]|].
      apply Rmult_lt_reg_r with eq; [lra|]. unfold Rdiv. rewrite Rmult_assoc, Rinv_l by lra. lra. }
    assert (Q : pol / (1 - (eq - pol) / eq) = eq) by (field; split; lra).
    rbool. cbn -[Rminus Rdiv Rmult]. unfold num_div, num2. rewrite Req_bool_false by lra. rewrite Q. cbn [num_lt].
    rewrite Rlt_bool_false by lra. reflexivity.
Qed.

Lemma radii_accepted e r1 r2 : body_radii (A := ar_num) e = Ok (r1, r2) ->
  exists eq pol, r1 = Num eq /\ r2 = Num pol /\ 0 < pol /\ pol <= eq /\ described e eq pol.
Proof.
  unfold body_radii, radii_validate. destruct e as [[|a] [|b]|[|a] [|f]|[|b] [|f]];
    cbn [radii_of eq_rad pol_rad flattening a_of_Z ar_num]; unfold a_le; cbn [a_lt a_isnan ar_num num_lt num_isnan negb andb orb];
    try (rbool; cbn; discriminate).
  - rbool; cbn; try discriminate. destruct (Rlt_bool_spec a b); cbn; [discriminate|].
    intros E. injection E as <- <-. exists a, b. cbn. repeat split; auto; lra.
  - rbool; cbn -[Rminus Rdiv Rmult]; try discriminate.
    destruct (Rlt_bool_spec a (a * (1 - f))); cbn -[Rminus Rdiv Rmult]; [discriminate|].
    intros E. injection E as <- <-. exists a, (a * (1 - f)). cbn [described]. repeat split; auto; try nra.
    f_equal. field. lra.
  - rbool; cbn -[Rminus Rdiv Rmult]; try discriminate. unfold num_div, num2. rewrite Req_bool_false by lra. cbn [num_lt].
    destruct (Rlt_bool_spec (b / (1 - f)) b); cbn -[Rminus Rdiv Rmult]; [discriminate|].
    intros E. injection E as <- <-. exists (b / (1 - f)), b. cbn [described]. repeat split; auto; try lra.
    f_equal. field. split; lra.
Qed.

(** In doubles. *)
Lemma lt_double_fval (x y : double) : flt x y = true -> is_nan x = false /\ is_nan y = false /\ fval x < fval y.
Proof.
  intros H. assert (is_nan x = false).
  { destruct (is_nan x) eqn:N; auto. rewrite flt_nan_l in H by exact N. discriminate. }
  assert (is_nan y = false).
  { destruct (is_nan y) eqn:N; auto. rewrite flt_nan_r in H by exact N. discriminate. }
  rewrite flt_spec in H by assumption. destruct (Rlt_bool_spec (fval x) (fval y)); [auto|discriminate].
Qed.

Lemma one_minus (f : double) : a_le ar_double (double_of_Z 0 : ar_double) (f : ar_double) = true ->
  flt f (double_of_Z 1) = true ->
  is_finite f = true /\ is_finite (Bminus mode_NE (double_of_Z 1) f) = true /\ 0 < B2R (Bminus mode_NE (double_of_Z 1) f) <= 1.
Proof.
  intros L U. destruct (double_of_Z_exact 1 ltac:(lia)) as [F1 V1]. destruct (double_of_Z_exact 0 ltac:(lia)) as [F0 V0].
  assert (F : is_finite f = true).
  { destruct f as [|[|]| |]; try reflexivity; try discriminate. }
  rewrite le_double, V0 in L by assumption. destruct (Rle_bool_spec 0 (B2R f)) as [L'|]; [|discriminate].
  unfold flt in U. rewrite Bltb_correct, V1 in U by assumption.
  destruct (Rlt_bool_spec (B2R f) 1) as [U'|]; [|discriminate].
  assert (R1 : rnd (1 - B2R f) <= 1).
  { apply Rle_trans with (rnd 1); [apply rnd_le; lra|right; apply (rnd_int 1); lia]. }
  assert (R0 : 0 < rnd (1 - B2R f)).
  { assert (G1 : generic_format radix2 (SpecFloat.fexp 53 1024) 1).
    { rewrite <- V1. apply generic_format_B2R. }
    pose proof (generic_format_B2R 53 1024 f) as Gf.
    pose proof (succ_le_lt radix2 (SpecFloat.fexp 53 1024) (B2R f) 1 Gf G1 U') as S.
    pose proof (pred_ge_gt radix2 (SpecFloat.fexp 53 1024) (B2R f) 1 Gf G1 U') as P.
    assert (D : bpow radix2 (-53) <= 1 - B2R f).
    { apply Rle_trans with (1 - pred radix2 (SpecFloat.fexp 53 1024) 1); [|lra].
      change 1 with (bpow radix2 0). rewrite pred_bpow. right. cbn -[bpow].
      unfold SpecFloat.fexp, SpecFloat.emin. cbn -[bpow]. ring. }
    apply Rlt_le_trans with (bpow radix2 (-53)); [apply bpow_gt_0|].
    rewrite <- (round_generic radix2 (SpecFloat.fexp 53 1024) ZnearestE (bpow radix2 (-53))).
    - apply rnd_le. exact D.
    - apply generic_format_bpow. unfold SpecFloat.fexp, SpecFloat.emin. lia. }
  pose proof (Bminus_correct 53 1024 _ _ mode_NE (double_of_Z 1) f F1 F) as C. cbn [round_mode] in C.
  rewrite V1, Rlt_bool_true in C.
  - destruct C as (V & Fv & _). rewrite V. auto.
  - rewrite Rabs_pos_eq by lra. apply Rle_lt_trans with 1; [lra|]. change 1 with (bpow radix2 0). apply bpow_lt. lia.
Qed.

Lemma positive_spec (x : double) : flt (double_of_Z 0) x = true <-> positive x.
Proof.
  destruct (double_of_Z_exact 0 ltac:(lia)) as [F0 V0]. split.
  - intros H. destruct (lt_double_fval _ _ H) as (_ & N & L). rewrite (fval_finite _ F0), V0 in L. split; assumption.
  - intros [N L]. rewrite flt_spec; [|reflexivity|exact N]. rewrite (fval_finite _ F0), V0. now apply Rlt_bool_true.
Qed.

Lemma proper_spec (f : double) :
  a_le ar_double (double_of_Z 0 : ar_double) (f : ar_double) && flt f (double_of_Z 1) = true <-> proper_flattening f.
Proof.
  destruct (double_of_Z_exact 1 ltac:(lia)) as [F1 V1]. destruct (double_of_Z_exact 0 ltac:(lia)) as [F0 V0]. split.
  - intros H. apply andb_true_iff in H. destruct H as [L U]. destruct (one_minus f L U) as (F & _).
    rewrite le_double, V0 in L by assumption. unfold flt in U. rewrite Bltb_correct, V1 in U by assumption.
    destruct (Rle_bool_spec 0 (B2R f)); [|discriminate]. destruct (Rlt_bool_spec (B2R f) 1); [|discriminate].
    split; [exact F|lra].
  - intros [F B]. rewrite le_double, V0 by assumption. unfold flt. rewrite Bltb_correct, V1 by assumption.
    rewrite Rle_bool_true, Rlt_bool_true by lra. reflexivity.
Qed.

Lemma pos_pos (x : double) : positive x -> (exists m ex H, x = B754_finite false m ex H) \/ x = B754_infinity false.
Proof.
  intros [N L]. destruct x as [sg|[|]| |[|] m ex H]; cbn [is_nan] in N; try discriminate; cbn [fval] in L.
  - cbn in L. lra.
  - exfalso. assert (P : 0 < inf_val 1024) by apply bpow_gt_0. lra.
  - now right.
  - exfalso. pose proof (F2R_lt_0 radix2 (Float radix2 (Zneg m) ex) ltac:(cbn; lia)) as K. cbn [B2R cond_Zopp] in L.
    apply (Rlt_asym _ _ L K).
  - left. now exists m, ex, H.
Qed.

Lemma positive_finite (x : double) : positive x -> is_finite x = true -> 0 < B2R x.
Proof. intros [_ L] F. now rewrite fval_finite in L by exact F. Qed.
Lemma positive_intro (x : double) : is_finite x = true -> 0 < B2R x -> positive x.
Proof. intros F L. split; [destruct x; auto; discriminate|now rewrite fval_finite]. Qed.
Lemma positive_inf : positive (B754_infinity false).
Proof. split; [reflexivity|]. cbn [fval]. apply bpow_gt_0. Qed.

(** The computed radii. *)
Lemma pol_computed (a f : double) : positive a -> proper_flattening f ->
  let p := Bmult mode_NE a (Bminus mode_NE (double_of_Z 1) f) in
  is_nan p = false /\ fval p <= fval a /\
  (is_finite a = true -> is_finite p = true /\ B2R p = rounded (B2R a * rounded (1 - B2R f))) /\
  (is_finite a = false -> p = B754_infinity false).
Proof.
  intros Pa Pf p. pose proof (proj2 (proper_spec f) Pf) as T. apply andb_true_iff in T. destruct T as [T1 T2].
  destruct (one_minus f T1 T2) as (Ff & Fm & Bm). destruct (double_of_Z_exact 1 ltac:(lia)) as [F1 V1].
  pose proof (minus_finite _ _ F1 Ff Fm) as [Vm _]. rewrite V1 in Vm. fold rounded in Vm.
  unfold p. set (m := Bminus mode_NE (double_of_Z 1) f) in *. clearbody m.
  destruct (is_finite a) eqn:Fa.
  - pose proof (positive_finite a Pa Fa) as La.
    assert (B : 0 <= rnd (B2R a * B2R m) <= B2R a).
    { split.
      - rewrite <- (rnd_int 0 ltac:(lia)). apply rnd_le. apply Rmult_le_pos; lra.
      - apply Rle_trans with (rnd (B2R a)).
        + apply rnd_le. rewrite <- (Rmult_1_r (B2R a)) at 2. apply Rmult_le_compat_l; lra.
        + right. apply round_generic; [typeclasses eauto|]. apply generic_format_B2R. }
    assert (O : Rabs (rnd (B2R a * B2R m)) < bpow radix2 1024).
    { rewrite Rabs_pos_eq by lra. apply Rle_lt_trans with (B2R a); [lra|].
      pose proof (abs_B2R_lt_emax 53 1024 a) as X. rewrite Rabs_pos_eq in X by lra. exact X. }
    destruct (mult_round a m Fa Fm O) as [Fp Vp].
    split; [destruct (Bmult mode_NE a m); auto; discriminate|].
    rewrite !fval_finite by assumption. rewrite Vp.
    split; [lra|]. split; [rewrite Vm; auto|discriminate].
  - destruct (pos_pos a Pa) as [(ma & ea & Ha & ->)| ->]; [discriminate|].
    destruct (pos_pos m (positive_intro m Fm ltac:(lra))) as [(mm & em & Hm & ->)| ->]; [|discriminate].
    cbn. split; [reflexivity|]. split; [lra|]. split; [discriminate|reflexivity].
Qed.

Lemma eq_computed (b f : double) : positive b -> proper_flattening f ->
  let q := Bdiv mode_NE b (Bminus mode_NE (double_of_Z 1) f) in
  is_nan q = false /\ fval b <= fval q /\
  (is_finite q = true -> is_finite b = true /\ B2R q = rounded (B2R b / rounded (1 - B2R f))).
Proof.
  intros Pb Pf q. pose proof (proj2 (proper_spec f) Pf) as T. apply andb_true_iff in T. destruct T as [T1 T2].
  destruct (one_minus f T1 T2) as (Ff & Fm & Bm). destruct (double_of_Z_exact 1 ltac:(lia)) as [F1 V1].
  pose proof (minus_finite _ _ F1 Ff Fm) as [Vm _]. rewrite V1 in Vm. fold rounded in Vm.
  unfold q. set (m := Bminus mode_NE (double_of_Z 1) f) in *. clearbody m.
  destruct (is_finite b) eqn:Fb.
  - pose proof (positive_finite b Pb Fb) as Lb.
    assert (D : B2R b <= B2R b / B2R m).
    { apply Rmult_le_reg_r with (B2R m); [lra|]. unfold Rdiv. rewrite Rmult_assoc, Rinv_l by lra.
      apply Rmult_le_compat_l; lra. }
    assert (B : B2R b <= rnd (B2R b / B2R m)).
    { apply Rle_trans with (rnd (B2R b)).
      - right. symmetry. apply round_generic; [typeclasses eauto|]. apply generic_format_B2R.
      - now apply rnd_le. }
    pose proof (Bdiv_correct 53 1024 _ _ mode_NE b m ltac:(lra)) as C. cbn [round_mode] in C.
    destruct (Rlt_bool_spec (Rabs (rnd (B2R b / B2R m))) (bpow radix2 1024)) as [O|O].
    + destruct C as (Vq & Fq & _). rewrite Fb in Fq.
      split; [destruct (Bdiv mode_NE b m); auto; discriminate|].
      rewrite !fval_finite by assumption. rewrite Vq. split; [exact B|]. rewrite Vm. auto.
    + destruct (pos_pos b Pb) as [(mb & eb & Hb & ->)| ->]; [|discriminate].
      destruct (pos_pos m (positive_intro m Fm ltac:(lra))) as [(mm & em & Hm & ->)| ->]; [|discriminate].
      cbn [Bsign xorb] in C. unfold binary_overflow, overflow_to_inf in C.
      destruct (Bdiv mode_NE (B754_finite false mb eb Hb) (B754_finite false mm em Hm)) as [|sg| |]; try discriminate.
      cbn in C. injection C as ->. split; [reflexivity|]. split; [|discriminate].
      pose proof (fval_bound (B754_finite false mb eb Hb) eq_refl) as FB. cbn [fval] in *. lra.
  - destruct (pos_pos b Pb) as [(mb & eb & Hb & ->)| ->]; [discriminate|].
    destruct (pos_pos m (positive_intro m Fm ltac:(lra))) as [(mm & em & Hm & ->)| ->]; [|discriminate].
    cbn. split; [reflexivity|]. split; [lra|discriminate].
Qed.

Lemma spheroid_positive pro (eq pol : double) :
  (positive eq /\ positive pol /\ fval pol <= fval eq ->
    spheroid_new (A := ar_double) pro eq pol = Ok (Spheroid pro (eq : ar_double) (pol : ar_double))) /\
  (~ (positive eq /\ positive pol /\ fval pol <= fval eq) ->
    spheroid_new (A := ar_double) pro eq pol = Throw invalid_argument).
Proof.
  rewrite spheroid_new_double. split.
  - intros ([Ne Le] & [Np Lp] & L). rewrite Ne, Np, Rlt_bool_true, Rle_bool_true by assumption. reflexivity.
  - intros H. destruct (is_nan eq) eqn:Ne; [reflexivity|]. destruct (is_nan pol) eqn:Np; [reflexivity|]. cbn [negb andb].
    destruct (Rlt_bool_spec 0 (fval pol)); [|reflexivity]. destruct (Rle_bool_spec (fval pol) (fval eq)); [|reflexivity].
    exfalso. apply H. repeat split; auto. lra.
Qed.

Lemma tests a b f :
  let n := (count (flt (double_of_Z 0) a) + count (flt (double_of_Z 0) b) +
    count (a_le ar_double (double_of_Z 0 : ar_double) (f : ar_double) && flt f (double_of_Z 1)))%Z in
  ((n <? 2)%Z = true <-> (flt (double_of_Z 0) a = false \/ flt (double_of_Z 0) b = false) /\
    (flt (double_of_Z 0) a = false \/ (a_le ar_double (double_of_Z 0 : ar_double) (f : ar_double) && flt f (double_of_Z 1)) = false) /\
    (flt (double_of_Z 0) b = false \/ (a_le ar_double (double_of_Z 0 : ar_double) (f : ar_double) && flt f (double_of_Z 1)) = false)).
Proof.
  destruct (flt (double_of_Z 0) a), (flt (double_of_Z 0) b),
    (a_le ar_double (double_of_Z 0 : ar_double) (f : ar_double) && flt f (double_of_Z 1)); cbn; intuition congruence.
Qed.

Lemma not_positive (x : double) : ~ positive x -> flt (double_of_Z 0) x = false.
Proof. intros H. destruct (flt (double_of_Z 0) x) eqn:E; auto. exfalso. now apply H, positive_spec. Qed.

Lemma positive_not_negative (x : double) : positive x -> flt x (double_of_Z 0) = false.
Proof.
  intros [N L]. destruct (double_of_Z_exact 0 ltac:(lia)) as [F0 V0].
  rewrite flt_spec by (auto; reflexivity). rewrite (fval_finite _ F0), V0. apply Rlt_bool_false. lra.
Qed.

Lemma flt_le (x y : double) : is_nan x = false -> is_nan y = false -> fval y <= fval x -> flt x y = false.
Proof. intros Nx Ny L. rewrite flt_spec by assumption. now apply Rlt_bool_false. Qed.

Lemma classic_bool (P : Prop) (b : bool) : (b = true <-> P) -> P \/ ~ P.
Proof. destruct b; intuition congruence. Qed.

Lemma radii_doubles pro (e : radii_entry ar_double) :
  (radii_usable e -> exists eq pol : double,
     body_spheroid pro e = Ok (Spheroid pro (eq : ar_double) (pol : ar_double)) /\ radii_made e eq pol) /\
  (~ radii_usable e -> body_spheroid pro e = Throw invalid_argument).
Proof.
  unfold body_spheroid, body_radii, radii_validate.
  destruct e as [a b|a f|b f]; cbn [radii_of eq_rad pol_rad flattening a_of_Z a_lt a_div a_mul a_sub ar_double radii_usable radii_made];
    change (acar ar_double) with double in *.
  - set (n := (_ + _ + _)%Z).
    assert (En : n = (count (flt (double_of_Z 0) a) + count (flt (double_of_Z 0) b))%Z) by (unfold n; change (a_le ar_double (double_of_Z 0 : ar_double) (double_of_Z (-1) : ar_double)) with false; cbn [andb count]; apply Z.add_0_r).
    rewrite En. clear n En.
    destruct (classic_bool _ _ (positive_spec a)) as [Pa|Pa]; [|split; [tauto|intros _; rewrite (not_positive a Pa); destruct (flt (double_of_Z 0) b); reflexivity]].
    destruct (classic_bool _ _ (positive_spec b)) as [Pb|Pb]; [|split; [tauto|intros _; rewrite (not_positive b Pb); destruct (flt (double_of_Z 0) a); reflexivity]].
    rewrite !(proj2 (positive_spec _)) by assumption. cbn [count Z.add Pos.add Pos.succ Z.ltb Z.compare Pos.compare Pos.compare_cont].
    rewrite !positive_not_negative by assumption.
    destruct (Rle_dec (fval b) (fval a)) as [L|L].
    + split; [|tauto]. intros _. exists a, b. cbn [eq_rad pol_rad].
      rewrite flt_le by (auto; try apply Pa; apply Pb). cbn [bind fst snd eq_rad pol_rad].
      split; [apply spheroid_positive; tauto|]. unfold radii_made. pose proof (eq_refl a). pose proof (eq_refl b). tauto.
    + split; [tauto|]. intros _. cbn [eq_rad pol_rad]. rewrite flt_spec, Rlt_bool_true by (try apply Pa; try apply Pb; lra). reflexivity.
  - set (n := (_ + _ + _)%Z).
    assert (En : n = (count (flt (double_of_Z 0) a) + count (a_le ar_double (double_of_Z 0 : ar_double) (f : ar_double) && flt f (double_of_Z 1)))%Z)
      by (unfold n; change (flt (double_of_Z 0) (double_of_Z (-1))) with false; cbn [count]; rewrite ?Z.add_0_r, ?Z.add_0_l; reflexivity).
    rewrite En. clear n En.
    destruct (classic_bool _ _ (positive_spec a)) as [Pa|Pa];
      [|split; [tauto|intros _; rewrite (not_positive a Pa); destruct (_ && _); reflexivity]].
    destruct (classic_bool _ _ (proper_spec f)) as [Pf|Pf].
    2: { split; [tauto|]. intros _. destruct (a_le ar_double _ _ && _) eqn:E; [exfalso; now apply Pf, proper_spec|].
         destruct (flt (double_of_Z 0) a); reflexivity. }
    rewrite (proj2 (positive_spec _)), (proj2 (proper_spec _)) by assumption. cbn [count Z.add Pos.add Pos.succ Z.ltb Z.compare Pos.compare Pos.compare_cont].
    rewrite positive_not_negative by assumption. change (flt (double_of_Z (-1)) (double_of_Z 0)) with true. cbv iota.
    destruct (pol_computed a f Pa Pf) as (Np & Lp & Cp & Ip).
    set (p := Bmult mode_NE a (Bminus mode_NE (double_of_Z 1) f)) in *.
    cbn [eq_rad pol_rad]. rewrite flt_le by (auto; apply Pa). cbn [bind fst snd eq_rad pol_rad].
    destruct (spheroid_positive pro a p) as [S1 S2].
    assert (PP : (is_finite a = true -> 0 < rounded (B2R a * rounded (1 - B2R f))) <-> positive p).
    { destruct (is_finite a) eqn:Fa.
      - destruct (Cp eq_refl) as [Fp Vp]. split.
        + intros H. apply positive_intro; [exact Fp|]. rewrite Vp. auto.
        + intros H _. rewrite <- Vp. now apply positive_finite.
      - rewrite (Ip eq_refl). split; [intros _; apply positive_inf|discriminate]. }
    split.
    + intros (_ & _ & H). apply PP in H. exists a, p. split; [apply S1; tauto|]. unfold radii_made. pose proof (eq_refl a). tauto.
    + intros H. apply S2. tauto.
  - set (n := (_ + _ + _)%Z).
    assert (En : n = (count (flt (double_of_Z 0) b) + count (a_le ar_double (double_of_Z 0 : ar_double) (f : ar_double) && flt f (double_of_Z 1)))%Z)
      by (unfold n; change (flt (double_of_Z 0) (double_of_Z (-1))) with false; cbn [count]; rewrite ?Z.add_0_r, ?Z.add_0_l; reflexivity).
    rewrite En. clear n En.
    destruct (classic_bool _ _ (positive_spec b)) as [Pb|Pb];
      [|split; [tauto|intros _; rewrite (not_positive b Pb); destruct (_ && _); reflexivity]].
    destruct (classic_bool _ _ (proper_spec f)) as [Pf|Pf].
    2: { split; [tauto|]. intros _. destruct (a_le ar_double _ _ && _) eqn:E; [exfalso; now apply Pf, proper_spec|].
         destruct (flt (double_of_Z 0) b); reflexivity. }
    rewrite (proj2 (positive_spec _)), (proj2 (proper_spec _)) by assumption. cbn [count Z.add Pos.add Pos.succ Z.ltb Z.compare Pos.compare Pos.compare_cont].
    change (flt (double_of_Z (-1)) (double_of_Z 0)) with true. cbv iota.
    destruct (eq_computed b f Pb Pf) as (Nq & Lq & Cq).
    set (q := Bdiv mode_NE b (Bminus mode_NE (double_of_Z 1) f)) in *.
    cbn [eq_rad pol_rad]. rewrite flt_le by (auto; apply Pb). cbn [bind fst snd eq_rad pol_rad].
    assert (Pq : positive q) by (split; [exact Nq|destruct Pb; lra]).
    destruct (spheroid_positive pro q b) as [S1 _]. split; [|tauto].
    intros _. exists q, b. split; [apply S1; tauto|]. unfold radii_made. pose proof (eq_refl b). tauto.
Qed.

(** ** Integers *)

Lemma decimal_fold l : forall v, fold_left (fun v d => (10 * v + d)%Z) l v = (v * 10 ^ Z.of_nat (length l) + positional l)%Z.
Proof.
  induction l as [|d l IH]; intros v; cbn [fold_left positional length]; [cbn; lia|].
  rewrite IH. rewrite Nat2Z.inj_succ, Z.pow_succ_r by lia. ring.
Qed.
Lemma decimal_positional l : decimal l = positional l.
Proof. unfold decimal. rewrite decimal_fold. lia. Qed.

Lemma positional_nonneg l : digits l -> (0 <= positional l)%Z.
Proof.
  induction 1; cbn [positional]; [lia|]. pose proof (Z.pow_nonneg 10 (Z.of_nat (length l)) ltac:(lia)). nia.
Qed.

Definition ztext (s : option bool) (l : list Z) : Z := match s with Some true => - positional l | _ => positional l end%Z.

Lemma integer_read n :
  (n_digits n <> [] -> (- 2 ^ 63 <= ztext (n_sign n) (n_digits n) < 2 ^ 63)%Z ->
     integer n = Parsed (ztext (n_sign n) (n_digits n))) /\
  (n_digits n = [] \/ ~ (- 2 ^ 63 <= ztext (n_sign n) (n_digits n) < 2 ^ 63)%Z -> integer n = Rejected).
Proof.
  unfold integer, ztext. destruct (n_digits n) as [|d l] eqn:E.
  - split; [congruence|reflexivity].
  - rewrite decimal_positional. set (p := positional (d :: l)).
    set (v := match n_sign n with Some true => _ | _ => _ end).
    split.
    + intros _ H. destruct (Z.leb_spec (- 2 ^ 63) v), (Z.leb_spec v (2 ^ 63 - 1)); try lia. reflexivity.
    + intros [H|H]; [discriminate|].
      destruct (Z.leb_spec (- 2 ^ 63) v), (Z.leb_spec v (2 ^ 63 - 1)); try reflexivity. exfalso. apply H. lia.
Qed.

Lemma integer_whole n : n_fraction n = None -> n_exponent n = None -> digits (n_digits n) ->
  IZR (ztext (n_sign n) (n_digits n)) = denoted n.
Proof.
  intros F E _. unfold denoted, ztext, signed. rewrite F, E.
  destruct (n_sign n) as [[|]|]; rewrite ?opp_IZR; ring.
Qed.

Lemma integer_sound n v : n_fraction n = None -> n_exponent n = None -> digits (n_digits n) ->
  integer n = Parsed v -> IZR v = denoted n /\ (- 2 ^ 63 <= v < 2 ^ 63)%Z.
Proof.
  intros F E D H. rewrite <- integer_whole by assumption.
  destruct (integer_read n) as [A B].
  destruct (n_digits n) as [|d l] eqn:L; [rewrite B in H by auto; discriminate|].
  destruct (Z_le_dec (- 2 ^ 63) (ztext (n_sign n) (d :: l))) as [X|X].
  - destruct (Z_lt_dec (ztext (n_sign n) (d :: l)) (2 ^ 63)) as [Y|Y].
    + rewrite A in H by (auto; discriminate). injection H as <-. auto.
    + rewrite B in H by lia. discriminate.
  - rewrite B in H by lia. discriminate.
Qed.

(** ** The blank value *)

Lemma fits_spec b z : In b [8; 16; 32; 64]%Z -> (- 2 ^ 63 <= z < 2 ^ 63)%Z ->
  blank_fits b z = true <-> representable b z.
Proof.
  intros H Hz. unfold blank_fits, representable.
  destruct H as [<-|[<-|[<-|[<-|[]]]]]; cbn [Z.eqb Pos.eqb];
    rewrite ?andb_true_iff, ?Z.leb_le; intuition (try lia; try discriminate).
Qed.

Lemma blank_accepted n p : digits (n_digits n) -> n_fraction n = None -> n_exponent n = None ->
  In (p_bitpix p) [8; 16; 32; 64]%Z ->
  (forall z, representable (p_bitpix p) z -> IZR z = denoted n -> n_digits n <> [] ->
     data_blank n p = Parsed (set_blank (Some z) p)) /\
  ((n_digits n = [] \/ forall z, IZR z = denoted n -> ~ representable (p_bitpix p) z) -> data_blank n p = Rejected).
Proof.
  intros D F E B. pose proof (integer_whole n F E D) as W. set (v := ztext (n_sign n) (n_digits n)) in *.
  destruct (integer_read n) as [A R]. fold v in A, R.
  assert (G : get_bitpix p = Ok (p_bitpix p)).
  { unfold get_bitpix. destruct B as [<-|[<-|[<-|[<-|[]]]]]; reflexivity. }
  assert (L : (p_bitpix p <? 0)%Z = false) by (destruct B as [<-|[<-|[<-|[<-|[]]]]]; reflexivity).
  split.
  - intros z Z1 Z2 N. assert (z = v) as -> by (apply eq_IZR; congruence).
    assert (V : (- 2 ^ 63 <= v < 2 ^ 63)%Z) by (unfold representable in Z1; lia).
    unfold data_blank. rewrite A by assumption. cbn [pbind]. rewrite G, L.
    now rewrite (proj2 (fits_spec _ _ B V)).
  - intros H. unfold data_blank. destruct (n_digits n) as [|d l] eqn:N.
    + rewrite R by auto. reflexivity.
    + destruct H as [H|H]; [discriminate|].
      destruct (Z_le_dec (- 2 ^ 63) v) as [X|X]; [|rewrite R by lia; reflexivity].
      destruct (Z_lt_dec v (2 ^ 63)) as [Y|Y]; [|rewrite R by lia; reflexivity].
      rewrite A by (auto; discriminate). cbn [pbind]. rewrite G, L.
      destruct (blank_fits (p_bitpix p) v) eqn:Q; [|reflexivity].
      exfalso. apply (H v W). apply fits_spec; auto.
Qed.

Lemma integer_texts n : digits (n_digits n) -> n_fraction n = None -> n_exponent n = None ->
  (forall v, integer n = Parsed v -> IZR v = denoted n) /\
  (forall v, IZR v = denoted n -> n_digits n <> [] -> (- 2 ^ 63 <= v < 2 ^ 63)%Z -> integer n = Parsed v) /\
  (forall v, IZR v = denoted n -> ~ (- 2 ^ 63 <= v < 2 ^ 63)%Z -> integer n = Rejected).
Proof.
  intros D F E. pose proof (integer_whole n F E D) as W. destruct (integer_read n) as [A B]. split; [|split].
  - intros v H. exact (proj1 (integer_sound n v F E D H)).
  - intros v H N R. rewrite <- W in H. apply eq_IZR in H. subst v. auto.
  - intros v H R. rewrite <- W in H. apply eq_IZR in H. subst v. auto.
Qed.

Lemma sizes n : digits (n_digits n) -> n_fraction n = None -> n_exponent n = None ->
  (forall v, positive_size n = Parsed v -> IZR v = denoted n /\ (0 < v < 2 ^ 63)%Z) /\
  (forall v, IZR v = denoted n -> n_digits n <> [] -> (0 < v < 2 ^ 63)%Z -> positive_size n = Parsed v) /\
  (forall v, nibble_size n = Parsed v -> IZR v = denoted n /\ (0 <= v < 2 ^ 63)%Z) /\
  (forall v, IZR v = denoted n -> n_digits n <> [] -> (0 <= v < 2 ^ 63)%Z -> nibble_size n = Parsed v).
Proof.
  intros D F E. destruct (integer_texts n D F E) as (_ & B & _). unfold positive_size, nibble_size.
  split; [|split; [|split]].
  - intros v H. destruct (integer n) as [w| |e] eqn:I; cbn [pbind] in H; try discriminate.
    destruct (integer_sound n w F E D I) as [V R].
    destruct (Z.ltb_spec 0 w) as [P|P]; [|discriminate]. injection H as <-. split; [exact V|lia].
  - intros v H N R. rewrite (B v H N) by lia. cbn [pbind]. now destruct (Z.ltb_spec 0 v) as [P|P]; [|lia].
  - intros v H. destruct (integer n) as [w| |e] eqn:I; cbn [pbind] in H; try discriminate.
    destruct (integer_sound n w F E D I) as [V R].
    destruct (Z.leb_spec 0 w) as [P|P]; [|discriminate]. injection H as <-. split; [exact V|lia].
  - intros v H N R. rewrite (B v H N) by lia. cbn [pbind]. now destruct (Z.leb_spec 0 v) as [P|P]; [|lia].
Qed.

Lemma integers_cut : exists n1 n2,
  denoted n1 = 1000 /\ positive_size n1 = Parsed 1%Z /\
  denoted n2 = 19 / 10 /\ positive_size n2 = Parsed 1%Z.
Proof.
  exists (NumText None [1]%Z None (Some (None, [3]%Z))), (NumText None [1]%Z (Some [9]%Z) None).
  unfold denoted, signed. cbn [n_sign n_digits n_fraction n_exponent].
  change (positional [1]%Z) with 1%Z. change (positional [9]%Z) with 9%Z. change (Z.to_nat (positional [3]%Z)) with 3%nat.
  split; [cbn; lra|]. split; [reflexivity|]. split; [cbn; lra|reflexivity].
Qed.

Lemma blank_integer_maps n p : digits (n_digits n) -> n_fraction n = None -> n_exponent n = None ->
  In (p_bitpix p) [8; 16; 32; 64]%Z ->
  (forall z, representable (p_bitpix p) z -> IZR z = denoted n -> n_digits n <> [] ->
     exists q, data_blank n p = Parsed q /\ p_blank q = Some z /\ p_bitpix q = p_bitpix p) /\
  (forall z, IZR z = denoted n -> ~ representable (p_bitpix p) z -> data_blank n p = Rejected).
Proof.
  intros D F E B. destruct (blank_accepted n p D F E B) as [A R]. split.
  - intros z Z1 Z2 N. exists (set_blank (Some z) p). split; [now apply A|]. unfold set_blank, lock. destruct (user_supplied _); split; reflexivity.
  - intros z Z1 Z2. apply R. right. intros w W. assert (w = z) as -> by (apply eq_IZR; congruence). exact Z2.
Qed.

Lemma blank_other_maps n p v : integer n = Parsed v ->
  (In (p_bitpix p) [-32; -64]%Z -> data_blank n p = Thrown invalid_argument) /\
  (p_bitpix p = 0%Z -> data_blank n p = Thrown runtime_error).
Proof.
  intros I. unfold data_blank. rewrite I. cbn [pbind]. unfold get_bitpix. split.
  - intros [<-|[<-|[]]]; reflexivity.
  - intros ->. reflexivity.
Qed.

Lemma validate_three :
  radii_validate (A := ar_num) (Radii (Num 1 : ar_num) (Num 0 : ar_num) (Num (1 / 2) : ar_num)) =
    Ok (Radii (Num 1 : ar_num) (Num 0 : ar_num) (Num (1 / 2) : ar_num)) /\
  radii_validate (A := ar_num) (Radii (Num 3 : ar_num) (Num 2 : ar_num) (Num (1 / 2) : ar_num)) =
    Ok (Radii (Num 3 : ar_num) (Num 2 : ar_num) (Num (1 / 2) : ar_num)) /\
  radii_validate (A := ar_num) (Radii (NaN : ar_num) (Num 2 : ar_num) (Num (1 / 2) : ar_num)) =
    Ok (Radii (NaN : ar_num) (Num 2 : ar_num) (Num (1 / 2) : ar_num)).
Proof.
  unfold radii_validate. cbn [eq_rad pol_rad flattening a_of_Z ar_num]. rewrite ?lt_num, ?le_num.
  split; [|split].
  - rbool; cbn; rbool; reflexivity.
  - rbool; cbn; rbool; reflexivity.
  - cbn [a_lt ar_num num_lt]. rbool; cbn; rbool; reflexivity.
Qed.
