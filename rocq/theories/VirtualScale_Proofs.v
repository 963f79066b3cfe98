(** Proofs for C54: [scale_and_offset] for arbitrary limits. *)
From Coq Require Import List ZArith Reals Bool Lra Lia Psatz.
From Flocq Require Import Core Plus_error BinarySingleNaN.
From Verif Require Import Base BaseFacts Flt FltFacts Num Extrema_Model Proj_Model Virtual_Model Virtual_Spec Virtual_Proofs.
Open Scope R_scope.

#[local] Existing Instance prec53.
#[local] Existing Instance emax53.
#[local] Existing Instance valid53.

Local Notation rnd := (round radix2 (SpecFloat.fexp 53 1024) ZnearestE).

Lemma scale_unfold L t lo hi min max : type_range t lo hi ->
  exists digits10 range, int_limits t = Some (lo, hi, digits10, range) /\
    scale_and_offset L t min max = scale_int L lo hi digits10 range min max /\
    (t = U8 /\ lo = 0 /\ hi = 255 /\ digits10 = 2 /\ range = 255 \/
     t = I16 /\ lo = -32768 /\ hi = 32767 /\ digits10 = 4 /\ range = 65535 \/
     t = I32 /\ lo = -2147483648 /\ hi = 2147483647 /\ digits10 = 9 /\ range = 4294967295 \/
     t = I64 /\ lo = -9223372036854775808 /\ hi = 9223372036854775807 /\ digits10 = 18 /\ range = 18446744073709551615)%Z.
Proof.
  intros T. destruct T; do 2 eexists; (split; [reflexivity|split; [reflexivity|]]); auto 10.
Qed.

Lemma too_wide_rejects L lo hi d range min max : too_wide range min max = true ->
  scale_int L lo hi d range min max = Ok None.
Proof. intros W. unfold scale_int. unfold too_wide in W. now rewrite W. Qed.

Lemma minus_neg (x y : double) : is_finite x = true -> is_finite y = true -> B2R x < B2R y ->
  is_finite (Bminus mode_NE x y) = true -> B2R (Bminus mode_NE x y) < 0.
Proof.
  intros Fx Fy H F. destruct (minus_finite x y Fx Fy F) as [E _]. rewrite E.
  assert (N : rnd (B2R x + - B2R y) <> 0).
  { apply round_plus_neq_0; try typeclasses eauto; try apply generic_format_opp; try apply generic_format_B2R. 
    all: idtac. lra. }
  assert (rnd (B2R x - B2R y) <= rnd 0) by (apply rnd_le; lra).
  rewrite round_0 in H0 by typeclasses eauto.
  unfold Rminus in *. lra.
Qed.

Lemma rejects L t lo hi min max : type_range t lo hi ->
  is_finite min = false \/ is_finite max = false \/
  (is_finite min = true /\ is_finite max = true /\
   (B2R max < B2R min \/ (t <> I64 /\ IZR (hi - lo + 1) <= B2R max - B2R min) \/
    IZR (2 ^ 64 + 2 ^ 12) <= B2R max - B2R min)) ->
  scale_and_offset L t min max = Ok None.
Proof.
  intros T H. destruct (scale_unfold L t lo hi min max T) as (d & range & _ & -> & C).
  apply too_wide_rejects. unfold too_wide.
  destruct (is_finite (Bminus mode_NE max min)) eqn:F; [|reflexivity]. cbn [negb orb].
  destruct (minus_nonfinite _ _ F) as [Fx Fn].
  destruct H as [H|[H|(_ & _ & H)]]; try congruence.
  destruct (double_of_Z_exact 0 ltac:(lia)) as [F0 V0].
  destruct H as [H|H].
  - rewrite (flt_finite _ _ F F0), V0. pose proof (minus_neg _ _ Fx Fn H F).
    now rewrite Rlt_bool_true by assumption.
  - apply orb_true_intro. right.
    destruct (minus_finite _ _ Fx Fn F) as [E _].
    assert (R : exists r big : Z, is_finite (double_of_Z range) = true /\ B2R (double_of_Z range) = IZR r /\
      (r < big)%Z /\ IZR big <= B2R max - B2R min /\ B2R (double_of_Z big) = IZR big).
    { destruct C as [(-> & -> & -> & _ & ->)|[(-> & -> & -> & _ & ->)|[(-> & -> & -> & _ & ->)|(-> & -> & -> & _ & ->)]]];
      match goal with |- context[double_of_Z ?x] => eval_double (double_of_Z x) Fr Vr end.
      - exists 255%Z, 256%Z. split; [exact Fr|split; [exact Vr|split; [lia|split]]].
        + destruct H as [[_ H]|H]; [exact H|]. eapply Rle_trans; [|exact H]. apply IZR_le. lia.
        + now apply double_of_Z_exact.
      - exists 65535%Z, 65536%Z. split; [exact Fr|split; [exact Vr|split; [lia|split]]].
        + destruct H as [[_ H]|H]; [exact H|]. eapply Rle_trans; [|exact H]. apply IZR_le. lia.
        + now apply double_of_Z_exact.
      - exists 4294967295%Z, 4294967296%Z. split; [exact Fr|split; [exact Vr|split; [lia|split]]].
        + destruct H as [[_ H]|H]; [exact H|]. eapply Rle_trans; [|exact H]. apply IZR_le. lia.
        + now apply double_of_Z_exact.
      - exists (2 ^ 64)%Z, (2 ^ 64 + 2 ^ 12)%Z. split; [exact Fr|split; [exact Vr|split; [lia|split]]].
        + destruct H as [[H _]|H]; [congruence|exact H].
        + eval_double (double_of_Z (2 ^ 64 + 2 ^ 12)) Fb Vb. exact Vb. }
    destruct R as (r & big & Fr & Vr & Lt & Hb & Vb).
    rewrite (flt_finite _ _ Fr F), Vr, E. apply Rlt_bool_true.
    apply Rlt_le_trans with (IZR big); [now apply IZR_lt|].
    rewrite <- Vb. rewrite <- (round_generic radix2 (SpecFloat.fexp 53 1024) ZnearestE (B2R (double_of_Z big)));
      [|apply generic_format_B2R].
    apply rnd_le. now rewrite Vb.
Qed.

(** ** What success gives *)

Lemma success_form L t lo hi min max s o : type_range t lo hi ->
  scale_and_offset L t min max = Ok (Some (s, o)) ->
  exists digits10 range n, int_limits t = Some (lo, hi, digits10, range) /\
    too_wide range min max = false /\
    to_int (s_log10 L (Bminus mode_NE max min)) = Ok n /\
    s = s_pow10 L (digits10 - n) /\ o = offset_for lo hi min max s.
Proof.
  intros T. destruct (scale_unfold L t lo hi min max T) as (d & range & E & -> & _).
  destruct (too_wide range min max) eqn:W.
  - rewrite too_wide_rejects by exact W. discriminate.
  - destruct (to_int (s_log10 L (Bminus mode_NE max min))) as [n| |] eqn:N.
    + rewrite (scale_int_eq L lo hi d range min max n W N). intros H. injection H as <- <-.
      exists d, range, n. auto.
    + unfold scale_int. unfold too_wide in W. rewrite W, N. discriminate.
    + unfold scale_int. unfold too_wide in W. rewrite W, N. discriminate.
Qed.

Lemma lowest_double t lo hi : type_range t lo hi ->
  is_finite (double_of_Z lo) = true /\ B2R (double_of_Z lo) = IZR lo /\
  is_finite (double_of_Z hi) = true /\ IZR hi <= B2R (double_of_Z hi).
Proof.
  intros T. destruct T;
  match goal with |- is_finite ?a = true /\ _ /\ is_finite ?b = true /\ _ =>
    eval_double a F1 V1; eval_double b F2 V2; rewrite V1, V2 end;
  (split; [exact F1|split; [reflexivity|split; [exact F2|apply IZR_le; vm_compute; discriminate]]]).
Qed.

Lemma plus_zero (x : double) : is_finite x = true ->
  is_finite (Bplus mode_NE x (double_of_Z 0)) = true /\ B2R (Bplus mode_NE x (double_of_Z 0)) = B2R x.
Proof.
  intros F. destruct (double_of_Z_exact 0 ltac:(lia)) as [F0 V0].
  assert (E : rnd (B2R x + B2R (double_of_Z 0)) = B2R x).
  { rewrite V0, Rplus_0_r. apply round_generic; [typeclasses eauto|apply generic_format_B2R]. }
  destruct (plus_round x (double_of_Z 0) F F0) as [Fp Ep].
  { rewrite E. apply abs_B2R_lt_emax. }
  split; [exact Fp|]. now rewrite Ep, E.
Qed.

Lemma fits_without_offset L t lo hi min max s o : type_range t lo hi ->
  scale_and_offset L t min max = Ok (Some (s, o)) ->
  is_finite s = true -> 0 <= B2R s ->
  is_finite (Bmult mode_NE min s) = true -> is_finite (Bmult mode_NE max s) = true ->
  IZR lo <= B2R (Bmult mode_NE min s) -> B2R (Bmult mode_NE max s) <= IZR hi ->
  o = double_of_Z 0 /\
  forall physical lat lon v, physical lat lon = Ok (Some v) -> is_finite v = true -> B2R min <= B2R v <= B2R max ->
  exists d, read_virtual (A := ar_double) s o physical lat lon = Ok (Some d) /\
    is_finite d = true /\ IZR lo <= B2R d <= IZR hi /\ B2R d = rnd (B2R v * B2R s).
Proof.
  intros T H Fs S F1 F2 B1 B2.
  destruct (success_form _ _ _ _ _ _ _ _ T H) as (d & range & n & _ & _ & _ & _ & O).
  destruct (lowest_double t lo hi T) as (Fl & Vl & Fh & Vh).
  assert (Z0 : o = double_of_Z 0).
  { rewrite O. unfold offset_for. rewrite !flt_finite by assumption.
    rewrite Rlt_bool_false by lra. rewrite Rlt_bool_false by lra. reflexivity. }
  split; [exact Z0|]. intros physical lat lon v E Fv V.
  destruct (mult_mono min v max s Fv Fs S V F1 F2) as [Fm M].
  eexists. split; [unfold read_virtual; rewrite E; reflexivity|]. cbn [a_add a_mul ar_double].
  rewrite Z0. destruct (plus_zero _ Fm) as [Fp Ep]. rewrite Ep.
  split; [exact Fp|split; [lra|]]. now apply mult_finite in Fm.
Qed.

Lemma log_le x y : 0 < x <= y -> ln x / ln 10 <= ln y / ln 10.
Proof.
  intros [H1 H2]. pose proof ln10_pos. apply Rmult_le_compat_r; [left; apply Rinv_0_lt_compat; lra|].
  destruct H2 as [H2| ->]; [left; now apply ln_increasing|right; reflexivity].
Qed.

Lemma Ztrunc_lt (r : R) (m : Z) : (0 < m)%Z -> r < IZR m -> (Ztrunc r < m)%Z.
Proof.
  intros M H. destruct (Rle_or_lt 0 r).
  - rewrite Ztrunc_floor by assumption. apply lt_IZR. eapply Rle_lt_trans; [apply Zfloor_lb|exact H].
  - rewrite Ztrunc_ceil by lra. apply Z.le_lt_trans with 0%Z; [apply Zceil_glb; simpl; lra|lia].
Qed.

Lemma range_logs : ln 255 / ln 10 < 3 - 1 / 10 /\ ln 65535 / ln 10 < 5 - 1 / 10 /\ ln 4294967295 / ln 10 < 10 - 1 / 10.
Proof.
  pose proof (log10_upper 255 10 25 ltac:(lra) ltac:(lia) ltac:(lra)).
  pose proof (log10_upper 65535 20 97 ltac:(lra) ltac:(lia) ltac:(lra)).
  pose proof (log10_upper 4294967295 10 97 ltac:(lra) ltac:(lia) ltac:(lra)).
  simpl INR in *. repeat split; lra.
Qed.

Lemma success_scale L t lo hi min max s o : accurate L -> type_range t lo hi -> t <> I64 ->
  scale_and_offset L t min max = Ok (Some (s, o)) ->
  exists k, (0 <= k)%Z /\ s = s_pow10 L k /\ ((k <= 22)%Z -> B2R s = IZR (10 ^ k)).
Proof.
  intros A T N H.
  destruct (success_form _ _ _ _ _ _ _ _ T H) as (d & range & n & E & W & Hn & Es & _).
  unfold too_wide in W. apply orb_false_elim in W. destruct W as [W W3].
  apply orb_false_elim in W. destruct W as [W1 W2]. apply negb_false_iff in W1.
  set (r := Bminus mode_NE max min) in *.
  destruct (double_of_Z_exact 0 ltac:(lia)) as [F0 V0].
  rewrite (flt_finite _ _ W1 F0), V0 in W2.
  assert (R0 : 0 <= B2R r) by (destruct (Rlt_bool_spec (B2R r) 0); [discriminate|assumption]).
  destruct A as (A1 & A2 & A3).
  destruct R0 as [R0|R0].
  2:{ rewrite (A2 r W1) in Hn by congruence. discriminate Hn. }
  destruct (A1 r W1 R0) as [Fl Bl]. apply Rabs_le_inv in Bl.
  unfold to_int in Hn. apply int_of_double_inv in Hn; [|lia]. destruct Hn as (_ & -> & _ & _).
  assert (D : exists y : Z, is_finite (double_of_Z range) = true /\ B2R (double_of_Z range) = IZR y /\ (0 < d < 18)%Z /\
      ln (IZR y) / ln 10 < IZR (d + 1) - 1 / 10).
  { destruct range_logs as (L1 & L2 & L3).
    destruct T; simpl in E; injection E as <- <-; try congruence;
    match goal with |- context[double_of_Z ?x] => eval_double (double_of_Z x) Fr Vr end;
    eexists; (split; [exact Fr|split; [exact Vr|split; [lia|]]]); assumption. }
  destruct D as (y & Fr & Vr & Hd & Ly).
  rewrite (flt_finite _ _ Fr W1), Vr in W3.
  assert (B2R r <= IZR y) by (destruct (Rlt_bool_spec (IZR y) (B2R r)); [discriminate|assumption]).
  pose proof (log_le (B2R r) (IZR y) ltac:(lra)).
  assert (Ztrunc (B2R (s_log10 L r)) < d + 1)%Z by (apply Ztrunc_lt; [lia|lra]).
  exists (d - Ztrunc (B2R (s_log10 L r)))%Z. split; [lia|split; [exact Es|]].
  intros K. rewrite Es, A3 by lia.
  set (k := (d - Ztrunc (B2R (s_log10 L r)))%Z) in *.
  assert (K' : (0 <= k <= 22)%Z) by lia. clear - K'.
  assert (C : exists j, (0 <= j <= 22)%nat /\ k = Z.of_nat j).
  { exists (Z.to_nat k). lia. }
  destruct C as (j & Hj & ->).
  do 23 (destruct j as [|j]; [match goal with |- B2R ?x = _ => eval_double x F V; exact V end|]).
  lia.
Qed.

(** ** Witnesses *)

Lemma equal_limits L t lo hi m : accurate L -> type_range t lo hi -> is_finite m = true ->
  scale_and_offset L t m m = UB ub_conversion.
Proof.
  intros (_ & A & _) T F. destruct (scale_unfold L t lo hi m m T) as (d & range & _ & -> & C).
  assert (Z0 : is_finite (Bminus mode_NE m m) = true /\ B2R (Bminus mode_NE m m) = 0).
  { pose proof (Bminus_correct 53 1024 _ _ mode_NE m m F F) as Q. cbn [round_mode] in Q.
    replace (B2R m - B2R m) with 0 in Q by ring. rewrite round_0 in Q by typeclasses eauto.
    rewrite Rabs_R0, Rlt_bool_true in Q by apply bpow_gt_0. tauto. }
  destruct Z0 as [Fz Vz].
  destruct (double_of_Z_exact 0 ltac:(lia)) as [F0 V0].
  assert (W : too_wide range m m = false).
  { unfold too_wide. rewrite Fz, (flt_finite _ _ Fz F0), Vz, V0, Rlt_bool_false by lra. cbn [negb orb].
    assert (R : is_finite (double_of_Z range) = true /\ 0 <= B2R (double_of_Z range)).
    { destruct C as [(_ & _ & _ & _ & ->)|[(_ & _ & _ & _ & ->)|[(_ & _ & _ & _ & ->)|(_ & _ & _ & _ & ->)]]];
      match goal with |- context[double_of_Z ?x] => eval_double (double_of_Z x) Fr Vr end;
      (split; [exact Fr|rewrite Vr; apply (IZR_le 0); lia]). }
    destruct R as [Fr Vr]. rewrite (flt_finite _ _ Fr Fz), Vz. now apply Rlt_bool_false. }
  unfold scale_int. unfold too_wide in W. rewrite W, (A _ Fz Vz). reflexivity.
Qed.

(** Evaluation for literal limits: [z] is the range of the data and [n] its
    truncated logarithm. *)
Lemma literal_case L t lo hi digits10 range min max z n a b : accurate L ->
  int_limits t = Some (lo, hi, digits10, range) ->
  too_wide range min max = false -> int_value (Bminus mode_NE max min) = Some z -> (0 < z)%Z ->
  (Z.of_nat n <= 30)%Z -> (10 ^ Z.of_nat a <= z ^ 20 <= 10 ^ Z.of_nat b)%Z ->
  (n = 0%nat \/ 20 * n + 2 <= a)%nat -> (b < 20 * n + 18)%nat ->
  scale_and_offset L t min max =
  Ok (Some (s_pow10 L (digits10 - Z.of_nat n), offset_for lo hi min max (s_pow10 L (digits10 - Z.of_nat n)))).
Proof.
  intros A E W V Z0 N [H1 H2] Ha Hb. unfold scale_and_offset. rewrite E.
  apply scale_int_eq; [exact W|].
  destruct (int_value_spec _ _ V) as [F Vz].
  assert (Q : 0 < IZR z) by now apply (IZR_lt 0).
  assert (L1 : INR a / INR 20 <= ln (IZR z) / ln 10).
  { apply log10_lower; [exact Q|lia|]. rewrite !pow_IZR. now apply IZR_le. }
  assert (L2 : ln (IZR z) / ln 10 <= INR b / INR 20).
  { apply log10_upper; [exact Q|lia|]. rewrite !pow_IZR. now apply IZR_le. }
  assert (I20 : INR 20 = 20) by (simpl; lra).
  rewrite I20 in L1, L2.
  assert (0 <= INR a) by apply pos_INR.
  apply to_int_log; auto; try rewrite Vz; try lia.
  - exact Q.
  - destruct (Z.eqb_spec (Z.of_nat n) 0).
    + lra.
    + destruct Ha as [Ha|Ha]; [lia|]. apply le_INR in Ha. rewrite plus_INR, mult_INR, I20 in Ha. simpl INR in Ha.
      rewrite <- INR_IZR_INZ. lra.
  - apply lt_INR in Hb. rewrite plus_INR, mult_INR, I20 in Hb. replace (INR 18) with 18 in Hb by (simpl; lra).
    rewrite <- INR_IZR_INZ. lra.
Qed.

Lemma scale_refuted L : accurate L ->
  (forall t lo hi m, type_range t lo hi -> is_finite m = true -> scale_and_offset L t m m = UB ub_conversion) /\
  (exists s o, scale_and_offset L I16 (dlit (-7) (-1)) (dlit 7 (-1)) = Ok (Some (s, o)) /\
     ~ scaled_data_fit (-32768) 32767 (-7 / 2) (7 / 2) (B2R s) (B2R o)) /\
  (exists s o, scale_and_offset L U8 (double_of_Z 0) (double_of_Z 7) = Ok (Some (s, o)) /\
     ~ scaled_data_fit 0 255 0 7 (B2R s) (B2R o)) /\
  (exists s o, scale_and_offset L I16 (double_of_Z 100000) (double_of_Z 100001) = Ok (Some (s, o)) /\
     ~ scaled_data_fit (-32768) 32767 100000 100001 (B2R s) (B2R o)) /\
  (exists s o, scale_and_offset L I64 (double_of_Z (2 ^ 62)) (double_of_Z (2 ^ 63)) = Ok (Some (s, o)) /\
     ~ scaled_data_fit (- 2 ^ 63) (2 ^ 63 - 1) (IZR (2 ^ 62)) (IZR (2 ^ 63)) (B2R s) (B2R o)) /\
  (exists o, scale_and_offset L I64 (double_of_Z (-8 * 10 ^ 18)) (double_of_Z (8 * 10 ^ 18)) = Ok (Some (s_pow10 L (-1), o))).
Proof.
  intros A. split; [intros; eapply equal_limits; eassumption|].
  split; [|split; [|split; [|split]]].
  - rewrite (literal_case L I16 _ _ _ _ _ _ 7 0 16 17 A eq_refl) by (first [vm_compute; reflexivity|split; vm_compute; discriminate|lia]).
    rewrite (accurate_pow L) by (auto; vm_compute; split; discriminate). do 2 eexists. split; [reflexivity|].
    match goal with |- ~ scaled_data_fit _ _ _ _ (B2R ?s) (B2R ?o) => eval_double s F V; eval_double o F' V'; rewrite V, V' end.
    intros [H1 H2]. simpl in H2. lra.
  - rewrite (literal_case L U8 _ _ _ _ _ _ 7 0 16 17 A eq_refl) by (first [vm_compute; reflexivity|split; vm_compute; discriminate|lia]).
    rewrite (accurate_pow L) by (auto; vm_compute; split; discriminate). do 2 eexists. split; [reflexivity|].
    match goal with |- ~ scaled_data_fit _ _ _ _ (B2R ?s) (B2R ?o) => eval_double s F V; eval_double o F' V'; rewrite V, V' end.
    intros [H1 H2]. lra.
  - rewrite (literal_case L I16 _ _ _ _ _ _ 1 0 0 0 A eq_refl) by (first [vm_compute; reflexivity|split; vm_compute; discriminate|lia]).
    rewrite (accurate_pow L) by (auto; vm_compute; split; discriminate). do 2 eexists. split; [reflexivity|].
    match goal with |- ~ scaled_data_fit _ _ _ _ (B2R ?s) (B2R ?o) => eval_double s F V; eval_double o F' V'; rewrite V, V' end.
    intros [H1 H2]. lra.
  - rewrite (literal_case L I64 _ _ _ _ _ _ (2 ^ 62) 18 373 374 A eq_refl) by (first [vm_compute; reflexivity|split; vm_compute; discriminate|lia]).
    rewrite (accurate_pow L) by (auto; vm_compute; split; discriminate). do 2 eexists. split; [reflexivity|].
    match goal with |- ~ scaled_data_fit _ _ _ _ (B2R ?s) (B2R ?o) => eval_double s F V; eval_double o F' V'; rewrite V, V' end.
    intros [H1 H2]. rewrite <- mult_IZR, <- plus_IZR in H2. apply le_IZR in H2. vm_compute in H2. now apply H2.
  - rewrite (literal_case L I64 _ _ _ _ _ _ (16 * 10 ^ 18) 19 384 385 A eq_refl) by (first [vm_compute; reflexivity|split; vm_compute; discriminate|lia]).
    eexists. reflexivity.
Qed.
