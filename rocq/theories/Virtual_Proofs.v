(** Proofs for C53 and C54: scaling of computed planes in doubles. *)
From Coq Require Import List ZArith Reals Bool Lra Lia Psatz.
From Flocq Require Import Core BinarySingleNaN.
From Verif Require Import Base BaseFacts Flt FltFacts Num Extrema_Model Proj_Model Virtual_Model Virtual_Spec.
Open Scope R_scope.

#[local] Existing Instance prec53.
#[local] Existing Instance emax53.

Local Notation rnd := (round radix2 (SpecFloat.fexp 53 1024) ZnearestE).
#[local] Instance valid53 : Valid_exp (SpecFloat.fexp 53 1024) := fexp_correct 53 1024 eq_refl.

(** ** Rounded operations *)

Lemma overflow_infinite (z : double) sg : B2SF z = binary_overflow 53 1024 mode_NE sg -> is_finite z = false.
Proof. intros E. rewrite <- is_finite_SF_B2SF, E. reflexivity. Qed.

Lemma mult_finite (x y : double) : is_finite (Bmult mode_NE x y) = true ->
  B2R (Bmult mode_NE x y) = rnd (B2R x * B2R y) /\ Rabs (rnd (B2R x * B2R y)) < bpow radix2 1024.
Proof.
  intros F. pose proof (Bmult_correct 53 1024 _ _ mode_NE x y) as C. cbn [round_mode] in C.
  destruct (Rlt_bool_spec (Rabs (rnd (B2R x * B2R y))) (bpow radix2 1024)) as [H|H].
  - now split.
  - apply overflow_infinite in C. congruence.
Qed.

Lemma mult_round (x y : double) : is_finite x = true -> is_finite y = true ->
  Rabs (rnd (B2R x * B2R y)) < bpow radix2 1024 ->
  is_finite (Bmult mode_NE x y) = true /\ B2R (Bmult mode_NE x y) = rnd (B2R x * B2R y).
Proof.
  intros Fx Fy H. pose proof (Bmult_correct 53 1024 _ _ mode_NE x y) as C. cbn [round_mode] in C.
  rewrite Rlt_bool_true in C by exact H. destruct C as (E & F & _).
  rewrite Fx, Fy in F. now split.
Qed.

Lemma plus_finite (x y : double) : is_finite x = true -> is_finite y = true ->
  is_finite (Bplus mode_NE x y) = true ->
  B2R (Bplus mode_NE x y) = rnd (B2R x + B2R y) /\ Rabs (rnd (B2R x + B2R y)) < bpow radix2 1024.
Proof.
  intros Fx Fy F. pose proof (Bplus_correct 53 1024 _ _ mode_NE x y Fx Fy) as C. cbn [round_mode] in C.
  destruct (Rlt_bool_spec (Rabs (rnd (B2R x + B2R y))) (bpow radix2 1024)) as [H|H].
  - now split.
  - destruct C as [C _]. apply overflow_infinite in C. congruence.
Qed.

Lemma plus_round (x y : double) : is_finite x = true -> is_finite y = true ->
  Rabs (rnd (B2R x + B2R y)) < bpow radix2 1024 ->
  is_finite (Bplus mode_NE x y) = true /\ B2R (Bplus mode_NE x y) = rnd (B2R x + B2R y).
Proof.
  intros Fx Fy H. pose proof (Bplus_correct 53 1024 _ _ mode_NE x y Fx Fy) as C. cbn [round_mode] in C.
  rewrite Rlt_bool_true in C by exact H. destruct C as (E & F & _). now split.
Qed.

Lemma minus_finite (x y : double) : is_finite x = true -> is_finite y = true ->
  is_finite (Bminus mode_NE x y) = true ->
  B2R (Bminus mode_NE x y) = rnd (B2R x - B2R y) /\ Rabs (rnd (B2R x - B2R y)) < bpow radix2 1024.
Proof.
  intros Fx Fy F. pose proof (Bminus_correct 53 1024 _ _ mode_NE x y Fx Fy) as C. cbn [round_mode] in C.
  destruct (Rlt_bool_spec (Rabs (rnd (B2R x - B2R y))) (bpow radix2 1024)) as [H|H].
  - now split.
  - destruct C as [C _]. apply overflow_infinite in C. congruence.
Qed.

Lemma minus_nonfinite (x y : double) : is_finite (Bminus mode_NE x y) = true ->
  is_finite x = true /\ is_finite y = true.
Proof. destruct x as [?|[|]| |], y as [?|[|]| |]; simpl; intros; try discriminate; auto. Qed.

Lemma div_round (x y : double) : is_finite x = true -> B2R y <> 0 ->
  Rabs (rnd (B2R x / B2R y)) < bpow radix2 1024 ->
  is_finite (Bdiv mode_NE x y) = true /\ B2R (Bdiv mode_NE x y) = rnd (B2R x / B2R y).
Proof.
  intros Fx Ny H. pose proof (Bdiv_correct 53 1024 _ _ mode_NE x y Ny) as C. cbn [round_mode] in C.
  rewrite Rlt_bool_true in C by exact H. destruct C as (E & F & _).
  rewrite Fx in F. now split.
Qed.

Lemma rnd_le a b : a <= b -> rnd a <= rnd b.
Proof. apply round_le; typeclasses eauto. Qed.

Lemma between_bound a x b m : a <= x <= b -> Rabs a < m -> Rabs b < m -> Rabs x < m.
Proof. intros [H1 H2] Ha Hb. apply Rabs_def2 in Ha. apply Rabs_def2 in Hb. apply Rabs_def1; lra. Qed.

(** [v * s + o] lies between the images of the ends. *)
Lemma mult_mono (x v y s : double) : is_finite v = true -> is_finite s = true -> 0 <= B2R s ->
  B2R x <= B2R v <= B2R y ->
  is_finite (Bmult mode_NE x s) = true -> is_finite (Bmult mode_NE y s) = true ->
  is_finite (Bmult mode_NE v s) = true /\
  B2R (Bmult mode_NE x s) <= B2R (Bmult mode_NE v s) <= B2R (Bmult mode_NE y s).
Proof.
  intros Fv Fs S [H1 H2] Fx Fy.
  apply mult_finite in Fx. apply mult_finite in Fy. destruct Fx as [Ex Bx], Fy as [Ey By].
  assert (M1 : rnd (B2R x * B2R s) <= rnd (B2R v * B2R s)) by (apply rnd_le, Rmult_le_compat_r; lra).
  assert (M2 : rnd (B2R v * B2R s) <= rnd (B2R y * B2R s)) by (apply rnd_le, Rmult_le_compat_r; lra).
  destruct (mult_round v s Fv Fs) as [F E].
  { eapply between_bound; eauto. }
  rewrite Ex, Ey, E. auto.
Qed.

Lemma plus_mono (x v y o : double) : is_finite x = true -> is_finite v = true -> is_finite y = true ->
  is_finite o = true -> B2R x <= B2R v <= B2R y ->
  is_finite (Bplus mode_NE x o) = true -> is_finite (Bplus mode_NE y o) = true ->
  is_finite (Bplus mode_NE v o) = true /\
  B2R (Bplus mode_NE x o) <= B2R (Bplus mode_NE v o) <= B2R (Bplus mode_NE y o).
Proof.
  intros F1 Fv F2 Fo [H1 H2] Fx Fy.
  apply plus_finite in Fx; auto. apply plus_finite in Fy; auto. destruct Fx as [Ex Bx], Fy as [Ey By].
  assert (M1 : rnd (B2R x + B2R o) <= rnd (B2R v + B2R o)) by (apply rnd_le; lra).
  assert (M2 : rnd (B2R v + B2R o) <= rnd (B2R y + B2R o)) by (apply rnd_le; lra).
  destruct (plus_round v o Fv Fo) as [F E].
  { eapply between_bound; eauto. }
  rewrite Ex, Ey, E. auto.
Qed.

Lemma affine_between (x v y s o : double) : is_finite v = true -> is_finite s = true -> is_finite o = true ->
  0 <= B2R s -> B2R x <= B2R v <= B2R y ->
  is_finite (Bmult mode_NE x s) = true -> is_finite (Bmult mode_NE y s) = true ->
  is_finite (Bplus mode_NE (Bmult mode_NE x s) o) = true ->
  is_finite (Bplus mode_NE (Bmult mode_NE y s) o) = true ->
  is_finite (Bplus mode_NE (Bmult mode_NE v s) o) = true /\
  B2R (Bplus mode_NE (Bmult mode_NE x s) o) <= B2R (Bplus mode_NE (Bmult mode_NE v s) o)
    <= B2R (Bplus mode_NE (Bmult mode_NE y s) o).
Proof.
  intros Fv Fs Fo S H Fx Fy Px Py.
  destruct (mult_mono x v y s Fv Fs S H Fx Fy) as [F M].
  apply plus_mono; auto.
Qed.

(** ** Concrete doubles *)

(** Sign, significand and exponent, for evaluation. *)
Definition parts (x : double) : option (Z * Z) :=
  match x with
  | B754_zero _ => Some (0, 0)%Z
  | B754_finite s m e _ => Some (SpecFloat.cond_Zopp s (Zpos m), e)
  | _ => None
  end.

Lemma parts_value x m e : parts x = Some (m, e) -> is_finite x = true /\ B2R x = IZR m * bpow radix2 e.
Proof.
  destruct x as [s|s| |s k ex H]; simpl; try discriminate; intros E; injection E as <- <-.
  - split; auto. simpl. ring.
  - split; auto.
Qed.

(** Value of a double that is an integer. *)
Definition int_value (x : double) : option Z :=
  match parts x with
  | Some (m, e) =>
      if (0 <=? e)%Z then Some (m * 2 ^ e)%Z
      else if (m mod 2 ^ (- e) =? 0)%Z then Some (m / 2 ^ (- e))%Z else None
  | None => None
  end.

Lemma int_value_spec x z : int_value x = Some z -> is_finite x = true /\ B2R x = IZR z.
Proof.
  unfold int_value. destruct (parts x) as [[m e]|] eqn:P; [|discriminate].
  destruct (parts_value x m e P) as [F V].
  destruct (Z.leb_spec 0 e).
  - intros E. injection E as <-. split; [exact F|].
    rewrite V, mult_IZR. f_equal. symmetry. apply (IZR_Zpower radix2). assumption.
  - destruct (Z.eqb_spec (m mod 2 ^ (- e)) 0) as [D|]; [|discriminate].
    intros E. injection E as <-. split; [exact F|].
    assert (Q : (0 < 2 ^ (- e))%Z) by (apply Z.pow_pos_nonneg; lia).
    apply Z.div_exact in D; [|lia]. rewrite V, D at 1.
    rewrite mult_IZR, (IZR_Zpower radix2) by lia.
    rewrite Rmult_assoc, (Rmult_comm (IZR _)), <- Rmult_assoc, <- bpow_plus.
    replace (- e + e)%Z with 0%Z by lia. simpl. ring.
Qed.

(** ** Powers of ten and logarithms *)

Lemma ln10_pos : 0 < ln 10.
Proof. rewrite <- ln_1. apply ln_increasing; lra. Qed.

(** [10^a <= x^n], [x^n <= 10^b] bound the logarithm of x by a/n and b/n. *)
Lemma log10_lower (x : R) (n a : nat) : 0 < x -> (0 < n)%nat -> 10 ^ a <= x ^ n -> INR a / INR n <= ln x / ln 10.
Proof.
  intros X N H. pose proof ln10_pos as L.
  assert (P : 0 < INR n) by (apply lt_0_INR; exact N).
  assert (Q : INR a * ln 10 <= INR n * ln x).
  { rewrite <- !ln_pow by lra. destruct (Rle_lt_or_eq_dec _ _ H) as [H'|H'].
    - left. apply ln_increasing; [apply pow_lt; lra|exact H'].
    - rewrite H'. right. reflexivity. }
  apply Rmult_le_reg_r with (INR n * ln 10); [nra|].
  replace (INR a / INR n * (INR n * ln 10)) with (INR a * ln 10) by (field; lra).
  replace (ln x / ln 10 * (INR n * ln 10)) with (INR n * ln x) by (field; lra). exact Q.
Qed.

Lemma log10_upper (x : R) (n b : nat) : 0 < x -> (0 < n)%nat -> x ^ n <= 10 ^ b -> ln x / ln 10 <= INR b / INR n.
Proof.
  intros X N H. pose proof ln10_pos as L.
  assert (P : 0 < INR n) by (apply lt_0_INR; exact N).
  assert (Q : INR n * ln x <= INR b * ln 10).
  { rewrite <- !ln_pow by lra. destruct (Rle_lt_or_eq_dec _ _ H) as [H'|H'].
    - left. apply ln_increasing; [apply pow_lt; lra|exact H'].
    - rewrite H'. right. reflexivity. }
  apply Rmult_le_reg_r with (INR n * ln 10); [nra|].
  replace (INR b / INR n * (INR n * ln 10)) with (INR b * ln 10) by (field; lra).
  replace (ln x / ln 10 * (INR n * ln 10)) with (INR n * ln x) by (field; lra). exact Q.
Qed.

(** The truncated logarithm is [n] when the logarithm is well inside. *)
Lemma to_int_log L x n : accurate L -> is_finite x = true -> 0 < B2R x -> (0 <= n <= 30)%Z ->
  (if (n =? 0)%Z then - 9 / 10 < ln (B2R x) / ln 10 else IZR n + 1 / 10 <= ln (B2R x) / ln 10) ->
  ln (B2R x) / ln 10 < IZR n + 9 / 10 ->
  to_int (s_log10 L x) = Ok n.
Proof.
  intros (A & _ & _) F P N H1 H2. destruct (A x F P) as [F' B].
  apply Rabs_le_inv in B. unfold to_int.
  assert (T : Ztrunc (B2R (s_log10 L x)) = n).
  { assert (IZR n < B2R (s_log10 L x) + 1 /\ B2R (s_log10 L x) < IZR n + 1 /\ (n <> 0%Z -> IZR n <= B2R (s_log10 L x)))
      as (U1 & U2 & U3).
    { destruct (Z.eqb_spec n 0) as [->|N0]; repeat split; try lra; intros; try easy; lra. }
    destruct (Z.eq_dec n 0) as [->|N0].
    - destruct (Rle_or_lt 0 (B2R (s_log10 L x))).
      + rewrite Ztrunc_floor by assumption. apply Zfloor_imp. simpl in *. lra.
      + rewrite Ztrunc_ceil by lra. apply Zceil_imp. simpl in *. lra.
    - specialize (U3 N0). assert (1 <= IZR n) by (apply (IZR_le 1); lia).
      rewrite Ztrunc_floor by lra. apply Zfloor_imp. rewrite plus_IZR. lra. }
  rewrite <- T. apply int_of_double_ok; [lia|exact F'|].
  assert (0 <= IZR n <= 30) by (split; [apply (IZR_le 0)|apply (IZR_le _ 30)]; lia).
  assert (- 1 <= B2R (s_log10 L x) <= 31).
  { destruct (Z.eqb_spec n 0); lra. }
  split.
  - apply Rlt_le_trans with (-2); [|lra].
    change (-2) with (IZR (-2)). rewrite <- minus_IZR. apply IZR_lt. reflexivity.
  - apply Rle_lt_trans with 31; [lra|]. rewrite <- plus_IZR. apply IZR_lt. reflexivity.
Qed.

(** Result of [scale_int] once the logarithm is known. *)
Definition offset_for (lowest highest : Z) (min max scale : double) : double :=
  if flt (Bmult mode_NE min scale) (double_of_Z lowest)
  then Bmult mode_NE (Bdiv mode_NE (Bminus mode_NE max min) (double_of_Z 2)) scale
  else if flt (double_of_Z highest) (Bmult mode_NE max scale)
  then Bmult mode_NE (Bdiv mode_NE (Bopp (Bminus mode_NE max min)) (double_of_Z 2)) scale
  else double_of_Z 0.

Definition too_wide (range : Z) (min max : double) : bool :=
  negb (is_finite (Bminus mode_NE max min)) || flt (Bminus mode_NE max min) (double_of_Z 0)
  || flt (double_of_Z range) (Bminus mode_NE max min).

Lemma scale_int_eq L lowest highest digits10 range min max n :
  too_wide range min max = false ->
  to_int (s_log10 L (Bminus mode_NE max min)) = Ok n ->
  scale_int L lowest highest digits10 range min max =
  Ok (Some (s_pow10 L (digits10 - n), offset_for lowest highest min max (s_pow10 L (digits10 - n)))).
Proof.
  intros W T. unfold scale_int. unfold too_wide in W. rewrite W, T. reflexivity.
Qed.

Lemma accurate_pow L k : accurate L -> (0 <= k <= 22)%Z -> s_pow10 L k = double_of_Z (10 ^ k).
Proof. intros (_ & _ & P) H. now apply P. Qed.

Lemma log_180 : 2 + 1 / 10 <= ln 180 / ln 10 < 2 + 9 / 10.
Proof.
  pose proof (log10_lower 180 10 22 ltac:(lra) ltac:(lia) ltac:(lra)).
  pose proof (log10_upper 180 10 23 ltac:(lra) ltac:(lia) ltac:(lra)).
  simpl INR in *. lra.
Qed.
Lemma log_360 : 2 + 1 / 10 <= ln 360 / ln 10 < 2 + 9 / 10.
Proof.
  pose proof (log10_lower 360 10 25 ltac:(lra) ltac:(lia) ltac:(lra)).
  pose proof (log10_upper 360 10 26 ltac:(lra) ltac:(lia) ltac:(lra)).
  simpl INR in *. lra.
Qed.
Lemma log_2 : - 9 / 10 < ln 2 / ln 10 < 0 + 9 / 10.
Proof.
  pose proof (log10_lower 2 10 3 ltac:(lra) ltac:(lia) ltac:(lra)).
  pose proof (log10_upper 2 10 4 ltac:(lra) ltac:(lia) ltac:(lra)).
  simpl INR in *. lra.
Qed.

Definition plane_digits (p : plane) : Z :=
  match p with latitude_plane | longitude_plane => 2 | _ => 0 end.

Lemma plane_log L p : accurate L ->
  to_int (s_log10 L (Bminus mode_NE (double_of_Z (plane_high p)) (double_of_Z (plane_low p)))) = Ok (plane_digits p).
Proof.
  intros A.
  assert (exists z, (z = 180 /\ p = latitude_plane \/ z = 360 /\ p = longitude_plane \/ z = 2 /\ plane_digits p = 0)%Z /\
    is_finite (Bminus mode_NE (double_of_Z (plane_high p)) (double_of_Z (plane_low p))) = true /\
    B2R (Bminus mode_NE (double_of_Z (plane_high p)) (double_of_Z (plane_low p))) = IZR z) as (z & C & F & V).
  { destruct p; [exists 180%Z|exists 360%Z|exists 2%Z|exists 2%Z|exists 2%Z]; (split; [auto 10|]);
    match goal with |- is_finite ?x = true /\ _ =>
      destruct (parts x) as [[m e]|] eqn:P; vm_compute in P; [|discriminate P];
      destruct (parts_value x _ _ P) as [F V]; split; [exact F|rewrite V]; injection P as <- <-; simpl; lra end. }
  apply to_int_log; auto; try rewrite V.
  - apply (IZR_lt 0). destruct C as [[-> _]|[[-> _]|[-> _]]]; lia.
  - destruct p; simpl; lia.
  - destruct C as [[-> ->]|[[-> ->]|[-> E]]].
    + apply log_180.
    + apply log_360.
    + rewrite E. apply log_2.
  - destruct C as [[-> ->]|[[-> ->]|[-> E]]].
    + apply log_180.
    + apply log_360.
    + rewrite E. apply log_2.
Qed.

(** The scale and offset of every plane and integral type. *)
Definition fits_type (t : mapty) (p : plane) (s o : double) (k lo hi : Z) : Prop :=
  let low := double_of_Z (plane_low p) in
  let high := double_of_Z (plane_high p) in
  is_finite s = true /\ is_finite o = true /\ (0 <= k)%Z /\ B2R s = IZR (10 ^ k) /\
  is_finite (Bmult mode_NE low s) = true /\ is_finite (Bmult mode_NE high s) = true /\
  is_finite (Bplus mode_NE (Bmult mode_NE low s) o) = true /\
  is_finite (Bplus mode_NE (Bmult mode_NE high s) o) = true /\
  IZR lo <= B2R (Bplus mode_NE (Bmult mode_NE low s) o) /\
  B2R (Bplus mode_NE (Bmult mode_NE high s) o) <= IZR hi.

Ltac eval_double x F V :=
  let P := fresh "P" in
  destruct (int_value x) as [?|] eqn:P; vm_compute in P; [|discriminate P];
  destruct (int_value_spec x _ P) as [F V];
  injection P as <-.

Lemma plane_case L t p lo hi : accurate L -> type_range t lo hi -> ~ (t = U8 /\ p = longitude_plane) ->
  exists s o k, scale_and_offset L t (double_of_Z (plane_low p)) (double_of_Z (plane_high p)) = Ok (Some (s, o)) /\
    fits_type t p s o k lo hi.
Proof.
  intros A T N.
  assert (exists lowest highest digits10 range, int_limits t = Some (lowest, highest, digits10, range) /\
    (t = U8 /\ lowest = 0 /\ highest = 255 /\ digits10 = 2 /\ range = 255 \/
     t = I16 /\ lowest = -32768 /\ highest = 32767 /\ digits10 = 4 /\ range = 65535 \/
     t = I32 /\ lowest = -2147483648 /\ highest = 2147483647 /\ digits10 = 9 /\ range = 4294967295 \/
     t = I64 /\ lowest = -9223372036854775808 /\ highest = 9223372036854775807 /\ digits10 = 18 /\ range = 18446744073709551615)%Z)
    as (lowest & highest & digits10 & range & E & C).
  { destruct T; do 4 eexists; (split; [reflexivity|]); auto 10. }
  unfold scale_and_offset. rewrite E.
  assert (W : too_wide range (double_of_Z (plane_low p)) (double_of_Z (plane_high p)) = false).
  { destruct C as [(-> & _ & _ & _ & ->)|[(-> & _ & _ & _ & ->)|[(-> & _ & _ & _ & ->)|(-> & _ & _ & _ & ->)]]];
    destruct p; try (vm_compute; reflexivity). exfalso. auto. }
  rewrite (scale_int_eq L lowest highest digits10 range _ _ (plane_digits p) W (plane_log L p A)).
  assert (K : (0 <= digits10 - plane_digits p <= 22)%Z).
  { destruct C as [(_ & _ & _ & -> & _)|[(_ & _ & _ & -> & _)|[(_ & _ & _ & -> & _)|(_ & _ & _ & -> & _)]]];
    destruct p; simpl; lia. }
  rewrite (accurate_pow L _ A K).
  do 2 eexists. exists (digits10 - plane_digits p)%Z. split; [reflexivity|].
  clear W E K. unfold fits_type.
  destruct C as [(-> & -> & -> & -> & ->)|[(-> & -> & -> & -> & ->)|[(-> & -> & -> & -> & ->)|(-> & -> & -> & -> & ->)]]];
  inversion T; subst lo hi; destruct p; try (exfalso; apply N; now split);
  match goal with |- is_finite ?s = true /\ is_finite ?o = true /\ _ /\ _ /\ is_finite ?l = true /\ is_finite ?h = true /\
    is_finite ?a = true /\ is_finite ?b = true /\ _ =>
    eval_double s F1 V1; eval_double o F2 V2; eval_double l F3 V3; eval_double h F4 V4;
    eval_double a F5 V5; eval_double b F6 V6;
    split; [exact F1|split; [exact F2|split; [cbn; lia|split; [rewrite V1; apply f_equal; vm_compute; reflexivity|]]]];
    repeat (split; [assumption|]); split; [rewrite V5|rewrite V6]; apply IZR_le; vm_compute; discriminate end.
Qed.

Lemma fle_finite (x y : double) : is_finite x = true -> is_finite y = true ->
  fle x y = Rle_bool (B2R x) (B2R y).
Proof.
  intros Fx Fy. rewrite fle_spec by now apply finite_not_nan.
  now rewrite !fval_finite by assumption.
Qed.

Lemma flt_finite (x y : double) : is_finite x = true -> is_finite y = true ->
  flt x y = Rlt_bool (B2R x) (B2R y).
Proof.
  intros Fx Fy. rewrite flt_spec by now apply finite_not_nan.
  now rewrite !fval_finite by assumption.
Qed.

Lemma plane_ends p (v : R) : plane_range p v ->
  B2R (double_of_Z (plane_low p)) <= v <= B2R (double_of_Z (plane_high p)).
Proof.
  rewrite (proj2 (double_of_Z_exact (plane_low p) ltac:(destruct p; vm_compute; discriminate))).
  rewrite (proj2 (double_of_Z_exact (plane_high p) ltac:(destruct p; vm_compute; discriminate))).
  destruct p; simpl; lra.
Qed.

Lemma type_range_0 t lo hi : type_range t lo hi -> (lo <= 0 <= hi)%Z.
Proof. destruct 1; lia. Qed.

Lemma planes_fit L : accurate L -> forall t lo hi p, type_range t lo hi ->
  (t = U8 /\ p = longitude_plane /\ forall ex, make_virtual L t p ex = Throw range_error) \/
  (exists s o ex k, make_virtual L t p ex_empty = Ok (s, o, ex) /\ (0 <= k)%Z /\ B2R s = IZR (10 ^ k) /\
     forall physical lat lon v, physical lat lon = Ok (Some v) -> is_finite v = true -> plane_range p (B2R v) ->
     exists d, read_virtual (A := ar_double) s o physical lat lon = Ok (Some d) /\
       is_finite d = true /\ IZR lo <= B2R d <= IZR hi /\
       int_of_double lo hi d = Ok (Ztrunc (B2R d)) /\ in_range ex d = true).
Proof.
  intros A t lo hi p T.
  assert (D : (t = U8 /\ p = longitude_plane) \/ ~ (t = U8 /\ p = longitude_plane)).
  { destruct t; try (right; intros [? ?]; discriminate); destruct p; auto; right; intros [? ?]; discriminate. }
  destruct D as [[-> ->]|N].
  - left. split; [reflexivity|split; [reflexivity|]]. intros ex. unfold make_virtual, scale_and_offset.
    cbn [int_limits]. 
    assert (W : too_wide 255 (double_of_Z 0) (double_of_Z 360) = true) by (vm_compute; reflexivity).
    unfold scale_int. unfold too_wide in W. cbn [plane_low plane_high]. now rewrite W.
  - right. destruct (plane_case L t p lo hi A T N) as (s & o & k & E & F).
    destruct F as (Fs & Fo & K & V & F1 & F2 & F3 & F4 & B1 & B2).
    exists s, o, (Extrema (T := ct F64) (Some (Bplus mode_NE (Bmult mode_NE (double_of_Z (plane_low p)) s) o))
                   (Some (Bplus mode_NE (Bmult mode_NE (double_of_Z (plane_high p)) s) o))), k.
    split; [|split; [exact K|split; [exact V|]]].
    + unfold make_virtual. rewrite E. unfold bind. unfold factory_minimum, factory_maximum, ex_empty, ex_set_min, ex_set_max, validate_minimum, validate_maximum.
      cbn [e_min e_max].
      rewrite (finite_not_nan _ F3), (finite_not_nan _ F4). reflexivity.
    + intros physical lat lon v E' Fv R.
      assert (P : 0 <= B2R s).
      { rewrite V. apply (IZR_le 0). apply Z.pow_nonneg. lia. }
      destruct (affine_between _ v _ s o Fv Fs Fo P (plane_ends p _ R) F1 F2 F3 F4) as [Fd [M1 M2]].
      eexists. split; [unfold read_virtual; rewrite E'; reflexivity|].
      cbn [a_add a_mul ar_double].
      split; [exact Fd|]. split; [split; lra|]. split.
      * apply int_of_double_ok; [now apply type_range_0 with t|exact Fd|lra].
      * unfold in_range. cbn [e_min e_max c_to_double ct double_ctype].
        rewrite !fle_finite by assumption. now rewrite !Rle_bool_true.
Qed.
