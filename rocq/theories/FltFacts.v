(** Facts about [Flt]. *)
From Coq Require Import ZArith Bool Reals Lra Lia.
From Flocq Require Import Core BinarySingleNaN.
From Verif Require Import Base Flt.
Open Scope R_scope.

Section Order.
Context {p e : Z}.
Implicit Types x y : binary_float p e.

Lemma fval_finite x : is_finite x = true -> fval x = B2R x.
Proof. destruct x as [s|[|]| |s m ex H]; simpl; congruence. Qed.

Lemma fval_bound x : is_finite x = true -> - inf_val e < fval x < inf_val e.
Proof.
  intros H. rewrite fval_finite by exact H.
  apply Rabs_lt_inv. eapply Rlt_le_trans; [apply abs_B2R_lt_emax|].
  apply bpow_le. lia.
Qed.

Lemma flt_spec x y : is_nan x = false -> is_nan y = false ->
  flt x y = Rlt_bool (fval x) (fval y).
Proof.
  intros Hx Hy.
  destruct (is_finite x) eqn:Fx; destruct (is_finite y) eqn:Fy.
  - unfold flt. rewrite Bltb_correct by assumption. now rewrite !fval_finite.
  - pose proof (fval_bound x Fx) as B.
    destruct y as [s|s| |s m ex H]; try discriminate.
    unfold flt, Bltb. destruct x as [sx|sx| |sx m ex H]; try discriminate; destruct s; cbn;
      cbn in B; symmetry; try (apply Rlt_bool_true; cbn; lra); try (apply Rlt_bool_false; cbn; lra).
    all: destruct sx; first [apply Rlt_bool_true; cbn; lra | apply Rlt_bool_false; cbn; lra].
  - pose proof (fval_bound y Fy) as B.
    destruct x as [s|s| |s m ex H]; try discriminate.
    unfold flt, Bltb. destruct y as [sx|sx| |sx m ex H]; try discriminate; destruct s; cbn;
      cbn in B; symmetry; try (apply Rlt_bool_true; cbn; lra); try (apply Rlt_bool_false; cbn; lra).
    all: destruct sx; first [apply Rlt_bool_true; cbn; lra | apply Rlt_bool_false; cbn; lra].
  - assert (P : 0 < inf_val e) by apply bpow_gt_0.
    destruct x as [sx|sx| |sx m ex H]; try discriminate;
    destruct y as [sy|sy| |sy my ey Hy']; try discriminate.
    destruct sx, sy; cbn; symmetry;
      first [apply Rlt_bool_true; lra | apply Rlt_bool_false; lra].
Qed.

Lemma fle_spec x y : is_nan x = false -> is_nan y = false ->
  fle x y = Rle_bool (fval x) (fval y).
Proof.
  intros Hx Hy.
  destruct (is_finite x) eqn:Fx; destruct (is_finite y) eqn:Fy.
  - unfold fle. rewrite Bleb_correct by assumption. now rewrite !fval_finite.
  - pose proof (fval_bound x Fx) as B.
    destruct y as [s|s| |s m ex H]; try discriminate.
    unfold fle, Bleb. destruct x as [sx|sx| |sx m ex H]; try discriminate; destruct s; cbn;
      cbn in B; symmetry; try (apply Rle_bool_true; cbn; lra); try (apply Rle_bool_false; cbn; lra).
    all: destruct sx; first [apply Rle_bool_true; cbn; lra | apply Rle_bool_false; cbn; lra].
  - pose proof (fval_bound y Fy) as B.
    destruct x as [s|s| |s m ex H]; try discriminate.
    unfold fle, Bleb. destruct y as [sx|sx| |sx m ex H]; try discriminate; destruct s; cbn;
      cbn in B; symmetry; try (apply Rle_bool_true; cbn; lra); try (apply Rle_bool_false; cbn; lra).
    all: destruct sx; first [apply Rle_bool_true; cbn; lra | apply Rle_bool_false; cbn; lra].
  - assert (P : 0 < inf_val e) by apply bpow_gt_0.
    destruct x as [sx|sx| |sx m ex H]; try discriminate;
    destruct y as [sy|sy| |sy my ey Hy']; try discriminate.
    destruct sx, sy; cbn; symmetry;
      first [apply Rle_bool_true; lra | apply Rle_bool_false; lra].
Qed.

Lemma flt_nan_l x y : is_nan x = true -> flt x y = false.
Proof. destruct x; try discriminate. reflexivity. Qed.
Lemma flt_nan_r x y : is_nan y = true -> flt x y = false.
Proof. destruct y; try discriminate. destruct x as [s|[|]| |[|] m ex H]; reflexivity. Qed.
Lemma fle_nan_l x y : is_nan x = true -> fle x y = false.
Proof. destruct x; try discriminate. reflexivity. Qed.
Lemma fle_nan_r x y : is_nan y = true -> fle x y = false.
Proof. destruct y; try discriminate. destruct x as [s|[|]| |[|] m ex H]; reflexivity. Qed.

Lemma fle_not_nan x y : fle x y = true -> is_nan x = false /\ is_nan y = false.
Proof.
  intros H. split.
  - destruct (is_nan x) eqn:E; auto. rewrite fle_nan_l in H by exact E. discriminate.
  - destruct (is_nan y) eqn:E; auto. rewrite fle_nan_r in H by exact E. discriminate.
Qed.

Lemma fle_fval x y : fle x y = true -> fval x <= fval y.
Proof.
  intros H. destruct (fle_not_nan _ _ H) as [Hx Hy].
  rewrite fle_spec in H by assumption. revert H. case Rle_bool_spec; [auto|discriminate].
Qed.

Lemma finite_not_nan x : is_finite x = true -> is_nan x = false.
Proof. destruct x; simpl; congruence. Qed.

Lemma fval_finite_inv x : is_nan x = false ->
  - inf_val e < fval x < inf_val e -> is_finite x = true.
Proof.
  intros Hn [H1 H2]. destruct x as [s|[|]| |s m ex H]; simpl in *; try congruence; lra.
Qed.

End Order.

(** ** Integer conversions *)

Lemma round_FIX0_IZR x : round radix2 (FIX_exp 0) Ztrunc x = IZR (Ztrunc x).
Proof.
  unfold round, scaled_mantissa, F2R, cexp, FIX_exp; simpl.
  now rewrite !Rmult_1_r.
Qed.

Lemma Btrunc_Ztrunc (d : double) : Btrunc d = Ztrunc (B2R d).
Proof.
  apply eq_IZR. rewrite (Btrunc_correct 53 1024 emax53). apply round_FIX0_IZR.
Qed.

Lemma Ztrunc_range lo hi r :
  (lo <= 0 <= hi)%Z ->
  IZR lo - 1 < r < IZR hi + 1 -> (lo <= Ztrunc r <= hi)%Z.
Proof.
  intros H0 [H1 H2].
  destruct (Rle_or_lt 0 r) as [P|P].
  - rewrite Ztrunc_floor by exact P. split.
    + assert (0 <= Zfloor r)%Z by (apply Zfloor_lub; exact P). lia.
    + assert (Zfloor r < hi + 1)%Z; [|lia]. apply lt_IZR. rewrite plus_IZR.
      eapply Rle_lt_trans; [apply Zfloor_lb|lra].
  - rewrite Ztrunc_ceil by lra. split.
    + assert (lo - 1 < Zceil r)%Z; [|lia]. apply lt_IZR. rewrite minus_IZR.
      eapply Rlt_le_trans; [|apply Zceil_ub]. lra.
    + assert (Zceil r <= 0)%Z by (apply Zceil_glb; simpl; lra). lia.
Qed.

Lemma Ztrunc_range_inv lo hi r :
  (lo <= 0 <= hi)%Z ->
  (lo <= Ztrunc r <= hi)%Z -> IZR lo - 1 < r < IZR hi + 1.
Proof.
  intros H0 [H1 H2].
  destruct (Rle_or_lt 0 r) as [P|P].
  - rewrite Ztrunc_floor in H1, H2 by exact P. split.
    + apply Rlt_le_trans with 0; [|exact P].
      assert (IZR lo <= 0) by (apply IZR_le; lia). lra.
    + eapply Rlt_le_trans; [apply Zfloor_ub|].
      apply IZR_le in H2. lra.
  - rewrite Ztrunc_ceil in H1, H2 by lra. split.
    + apply IZR_le in H1. pose proof (Zceil_lb r). lra.
    + assert (0 <= IZR hi) by (apply (IZR_le 0); lia). lra.
Qed.

Lemma int_of_double_ok lo hi d :
  (lo <= 0 <= hi)%Z -> is_finite d = true ->
  IZR lo - 1 < B2R d < IZR hi + 1 ->
  int_of_double lo hi d = Ok (Ztrunc (B2R d)).
Proof.
  intros H0 F H. unfold int_of_double. rewrite F, Btrunc_Ztrunc.
  destruct (Ztrunc_range lo hi _ H0 H) as [A B].
  apply Z.leb_le in A. apply Z.leb_le in B. now rewrite A, B.
Qed.

Lemma int_of_double_inv lo hi d z :
  (lo <= 0 <= hi)%Z ->
  int_of_double lo hi d = Ok z ->
  is_finite d = true /\ z = Ztrunc (B2R d) /\ (lo <= z <= hi)%Z /\
  IZR lo - 1 < B2R d < IZR hi + 1.
Proof.
  intros H0. unfold int_of_double. destruct (is_finite d) eqn:F; [|discriminate].
  rewrite Btrunc_Ztrunc.
  destruct (Z.leb_spec lo (Ztrunc (B2R d))) as [A|A]; [|discriminate].
  destruct (Z.leb_spec (Ztrunc (B2R d)) hi) as [B|B]; [|discriminate].
  simpl. intros E. injection E as <-. repeat split; auto; try lia;
  apply (Ztrunc_range_inv lo hi); auto; lia.
Qed.

Lemma int_of_double_cases lo hi d :
  (exists z, int_of_double lo hi d = Ok z) \/ int_of_double lo hi d = UB ub_conversion.
Proof.
  unfold int_of_double. destruct (is_finite d); auto.
  destruct (_ && _); eauto.
Qed.

Lemma normalize_exact p e (Hp : Prec_gt_0 p) (He : Prec_lt_emax p e) m ex sz :
  generic_format radix2 (SpecFloat.fexp p e) (F2R (Float radix2 m ex)) ->
  Rabs (F2R (Float radix2 m ex)) < bpow radix2 e ->
  is_finite (binary_normalize p e Hp He mode_NE m ex sz) = true /\
  B2R (binary_normalize p e Hp He mode_NE m ex sz) = F2R (Float radix2 m ex).
Proof.
  intros G B.
  pose proof (binary_normalize_correct p e Hp He mode_NE m ex sz) as C.
  cbv zeta in C. rewrite round_generic in C; [|apply valid_rnd_N|exact G].
  rewrite Rlt_bool_true in C by exact B. tauto.
Qed.

Lemma F2R_0 z : F2R (Float radix2 z 0) = IZR z.
Proof. unfold F2R; simpl; ring. Qed.

(** Integers of at most 53 bits, possibly followed by zeros. *)
Lemma double_of_Z_shift z k : (Z.abs z <= 2 ^ 53)%Z -> (0 <= k <= 900)%Z ->
  is_finite (double_of_Z (z * 2 ^ k)) = true /\ B2R (double_of_Z (z * 2 ^ k)) = IZR (z * 2 ^ k).
Proof.
  intros H Hk.
  assert (B : Rabs (IZR (z * 2 ^ k)) < bpow radix2 1024).
  { rewrite <- abs_IZR.
    apply Rle_lt_trans with (IZR (2 ^ (53 + k))).
    - apply IZR_le. rewrite Z.abs_mul, Z.pow_add_r by lia.
      rewrite (Z.abs_eq (2 ^ k)) by (apply Z.pow_nonneg; lia).
      apply Z.mul_le_mono_nonneg_r; [apply Z.pow_nonneg; lia|lia].
    - rewrite (IZR_Zpower radix2) by lia. apply bpow_lt. lia. }
  rewrite <- F2R_0 in B |- *.
  apply normalize_exact; [|exact B].
  rewrite F2R_0. apply generic_format_FLT.
  destruct (Z.eq_dec (Z.abs z) (2 ^ 53)) as [Eq|Ne].
  - exists (Float radix2 (Z.sgn z * 2 ^ 52) (k + 1)).
    + unfold F2R; cbn [Fnum Fexp]. rewrite <- IZR_Zpower by lia. rewrite <- mult_IZR.
      apply f_equal. change (Z.pow radix2 (k+1)) with (2 ^ (k + 1))%Z.
      rewrite Z.pow_add_r by lia.
      change (2^53)%Z with (2^52 * 2)%Z in Eq.
      assert (E : (z = Z.sgn z * 2 ^ 52 * 2)%Z) by lia.
      rewrite E at 1. lia.
    + cbn [Fnum]. change (Z.pow radix2 53) with (2^53)%Z. lia.
    + cbn [Fexp]. unfold SpecFloat.emin. lia.
  - exists (Float radix2 z k).
    + unfold F2R; cbn [Fnum Fexp]. rewrite <- IZR_Zpower by lia. now rewrite <- mult_IZR.
    + cbn [Fnum]. change (Z.pow radix2 53) with (2^53)%Z. lia.
    + cbn [Fexp]. unfold SpecFloat.emin. lia.
Qed.

Lemma double_of_Z_exact z : (Z.abs z <= 2 ^ 53)%Z ->
  is_finite (double_of_Z z) = true /\ B2R (double_of_Z z) = IZR z.
Proof.
  intros H. pose proof (double_of_Z_shift z 0 H ltac:(lia)) as P.
  now rewrite Z.mul_1_r in P.
Qed.

(** Monotone for all integers in range. *)
Lemma double_of_Z_round z : (Z.abs z <= 2 ^ 64)%Z ->
  is_finite (double_of_Z z) = true /\
  B2R (double_of_Z z) = round radix2 (SpecFloat.fexp 53 1024) ZnearestE (IZR z).
Proof.
  intros H.
  pose proof (binary_normalize_correct 53 1024 prec53 emax53 mode_NE z 0 false) as C.
  cbv zeta in C. rewrite F2R_0 in C. cbn [round_mode] in C.
  fold (double_of_Z z) in C.
  rewrite Rlt_bool_true in C; [tauto|].
  apply Rle_lt_trans with (bpow radix2 64); [|apply bpow_lt; lia].
  apply abs_round_le_generic.
  - apply (fexp_correct 53 1024); reflexivity.
  - apply valid_rnd_N.
  - apply generic_format_bpow. unfold SpecFloat.fexp, SpecFloat.emin. lia.
  - rewrite <- abs_IZR. rewrite <- IZR_Zpower by lia. apply IZR_le. exact H.
Qed.

Lemma double_of_Z_mono a b : (Z.abs a <= 2 ^ 64)%Z -> (Z.abs b <= 2 ^ 64)%Z -> (a <= b)%Z ->
  B2R (double_of_Z a) <= B2R (double_of_Z b).
Proof.
  intros Ha Hb H.
  rewrite (proj2 (double_of_Z_round a Ha)), (proj2 (double_of_Z_round b Hb)).
  apply round_le; [apply (fexp_correct 53 1024); reflexivity|apply valid_rnd_N|].
  now apply IZR_le.
Qed.

(** ** float and double *)

Lemma double_of_float_exact (x : float) : is_finite x = true ->
  is_finite (double_of_float x) = true /\ B2R (double_of_float x) = B2R x.
Proof.
  destruct x as [s|s| |s m ex H]; try discriminate; intros _.
  - split; reflexivity.
  - cbn [double_of_float B2R]. apply normalize_exact.
    + apply generic_format_FLT.
      pose proof (generic_format_B2R 24 128 (B754_finite s m ex H)) as G.
      cbn [B2R] in G.
      apply FLT_format_generic in G; [|reflexivity].
      destruct G as [f Hf Hn He]. exists f; [exact Hf| |].
      * eapply Z.lt_trans; [exact Hn|]. reflexivity.
      * unfold SpecFloat.emin in *. lia.
    + pose proof (abs_B2R_lt_emax 24 128 (B754_finite s m ex H)) as B. cbn [B2R] in B.
      eapply Rlt_trans; [exact B|]. apply bpow_lt. lia.
Qed.

Definition FLT_MAX_R : R := (1 - bpow radix2 (-24)) * bpow radix2 128.

Lemma float_of_double_round (d : double) : is_finite d = true ->
  Rabs (B2R d) <= FLT_MAX_R ->
  is_finite (float_of_double d) = true /\
  B2R (float_of_double d) = round radix2 (SpecFloat.fexp 24 128) ZnearestE (B2R d).
Proof.
  intros F B. destruct d as [s|s| |s m ex H]; try discriminate.
  - split; [reflexivity|]. cbn [float_of_double B2R]. symmetry. apply round_0. apply valid_rnd_N.
  - cbn [float_of_double].
    pose proof (binary_normalize_correct 24 128 prec24 emax24 mode_NE (SpecFloat.cond_Zopp s (Zpos m)) ex s) as C.
    cbv zeta in C. cbn [B2R] in B |- *. cbn [round_mode] in C.
    rewrite Rlt_bool_true in C; [tauto|].
    apply Rle_lt_trans with FLT_MAX_R.
    + apply abs_round_le_generic.
      * apply (fexp_correct 24 128); reflexivity.
      * apply valid_rnd_N.
      * apply generic_format_FLT. exists (Float radix2 (2 ^ 24 - 1) 104).
        -- unfold F2R, FLT_MAX_R; cbn [Fnum Fexp].
           replace (bpow radix2 128) with (bpow radix2 24 * bpow radix2 104)%R by (now rewrite <- bpow_plus).
           rewrite (minus_IZR (2 ^ 24) 1). change (IZR (2 ^ 24)) with (IZR (radix2 ^ 24)). rewrite (IZR_Zpower radix2 24) by lia.
           assert (E1 : bpow radix2 (-24) * bpow radix2 24 = 1) by (now rewrite <- bpow_plus).
           set (a := bpow radix2 24) in *. set (b := bpow radix2 (-24)) in *. set (c := bpow radix2 104).
           replace ((1 - b) * (a * c)) with (a * c - (b * a) * c) by ring. rewrite E1. ring.
        -- reflexivity.
        -- unfold SpecFloat.emin; simpl; lia.
      * exact B.
    + unfold FLT_MAX_R. pose proof (bpow_gt_0 radix2 128). pose proof (bpow_gt_0 radix2 (-24)). nra.
Qed.
