(** Proofs for C117. *)
From Coq Require Import List ZArith Reals Bool Lra Lia Psatz.
From Flocq Require Import Core BinarySingleNaN Relative.
From Verif Require Import Base BaseFacts Flt FltFacts Num Spheroid_Model Spheroid_Proofs Proj_Model Virtual_Model Virtual_Proofs RunAngle_Proofs
  PiBound_Proofs OrthoDouble_Proofs RunOrtho_Spec Body_Model Body_Spec.
Open Scope R_scope.

#[local] Existing Instance prec53.
#[local] Existing Instance emax53.
Local Ltac abs H := apply Rabs_le_inv in H.
Local Notation rnd := (round radix2 (SpecFloat.fexp 53 1024) ZnearestE).
#[local] Instance valid53_body : Valid_exp (SpecFloat.fexp 53 1024) := fexp_correct 53 1024 eq_refl.

(** ** Numbers of a scale [A], but for [e] of it *)
Definition scaled (x : double) (r A e : R) : Prop := is_finite x = true /\ Rabs r <= A /\ Rabs (B2R x - r) <= e * A.

Lemma scaled_value x r A e : scaled x r A e -> 0 <= A -> Rabs (B2R x) <= (1 + e) * A.
Proof. intros (_ & B & E) HA. replace (B2R x) with (B2R x - r + r) by ring. eapply Rle_trans; [apply Rabs_triang|]. lra. Qed.
Lemma scaled_weaken x r A e A' e' : scaled x r A e -> A <= A' -> e * A <= e' * A' -> scaled x r A' e'.
Proof. intros (F & B & E) H1 H2. split; [exact F|]. split; lra. Qed.
Lemma round_scaled v r A e k : Rabs (v - r) <= e * A -> Rabs r <= A -> 0 <= e <= 1e-3 -> 1e-90 <= A -> k = e + 1.12e-16 ->
  Rabs (rnd v - r) <= k * A.
Proof.
  intros E B He HA ->. pose proof (rnd_rel v) as N. pose proof u_value as UV. pose proof eta_tiny as [_ T].
  assert (V : Rabs v <= (1 + e) * A) by (replace v with (v - r + r) by ring; eapply Rle_trans; [apply Rabs_triang|]; lra).
  replace (rnd v - r) with (rnd v - v + (v - r)) by ring. eapply Rle_trans; [apply Rabs_triang|].
  assert (e * A <= 1e-3 * A) by (apply Rmult_le_compat_r; lra). rewrite UV in N. lra.
Qed.

Lemma scaled_mult x y r s A B e f : scaled x r A e -> scaled y s B f -> 0 <= e <= 1e-4 -> 0 <= f <= 1e-4 -> 0 <= A -> 0 <= B -> 1e-90 <= A * B <= 1e100 ->
  scaled (Bmult mode_NE x y) (r * s) (A * B) (1.001 * (e + f) + 1.12e-16).
Proof.
  intros X Y He Hf HA HB HAB. pose proof (scaled_value _ _ _ _ Y HB) as Yv. destruct X as (Fx & Bx & Ex). destruct Y as (Fy & By & Ey).
  assert (P : Rabs (B2R x * B2R y - r * s) <= 1.001 * (e + f) * (A * B)).
  { replace (B2R x * B2R y - r * s) with ((B2R x - r) * B2R y + r * (B2R y - s)) by ring. eapply Rle_trans; [apply Rabs_triang|].
    rewrite (Rabs_mult (B2R x - r)), (Rabs_mult r).
    assert (Rabs (B2R x - r) * Rabs (B2R y) <= (e * A) * ((1 + f) * B)) by (apply Rmult_le_compat; try apply Rabs_pos; assumption).
    assert (Rabs r * Rabs (B2R y - s) <= A * (f * B)) by (apply Rmult_le_compat; try apply Rabs_pos; assumption).
    assert (e * f <= e * 1e-4) by (apply Rmult_le_compat_l; lra).
    assert (e * f * (A * B) <= e * 1e-4 * (A * B)) by (apply Rmult_le_compat_r; lra).
    assert (0 <= e * (A * B)) by (apply Rmult_le_pos; lra). assert (0 <= f * (A * B)) by (apply Rmult_le_pos; lra). lra. }
  assert (Bs : Rabs (r * s) <= A * B) by (rewrite Rabs_mult; apply Rmult_le_compat; try apply Rabs_pos; assumption).
  assert (W : Rabs (B2R x * B2R y) <= 1e200).
  { replace (B2R x * B2R y) with (B2R x * B2R y - r * s + r * s) by ring. eapply Rle_trans; [apply Rabs_triang|].
    assert (1.001 * (e + f) * (A * B) <= 1 * (A * B)) by (apply Rmult_le_compat_r; lra). lra. }
  destruct (mult_round x y Fx Fy (rnd_fits _ W)) as [F V]. split; [exact F|]. split; [exact Bs|]. rewrite V.
  apply (round_scaled _ _ _ (1.001 * (e + f))); lra.
Qed.

Lemma scaled_plus x y r s A e f : scaled x r A e -> scaled y s A f -> 0 <= e <= 1e-4 -> 0 <= f <= 1e-4 -> 1e-90 <= A <= 1e100 ->
  scaled (Bplus mode_NE x y) (r + s) (2 * A) ((e + f) / 2 + 1.12e-16).
Proof.
  intros (Fx & Bx & Ex) (Fy & By & Ey) He Hf HA.
  assert (Bs : Rabs (r + s) <= 2 * A) by (eapply Rle_trans; [apply Rabs_triang|]; lra).
  assert (P : Rabs (B2R x + B2R y - (r + s)) <= (e + f) / 2 * (2 * A)).
  { replace (B2R x + B2R y - (r + s)) with ((B2R x - r) + (B2R y - s)) by ring. eapply Rle_trans; [apply Rabs_triang|]. lra. }
  assert (W : Rabs (B2R x + B2R y) <= 1e200).
  { replace (B2R x + B2R y) with (B2R x + B2R y - (r + s) + (r + s)) by ring. eapply Rle_trans; [apply Rabs_triang|].
    assert ((e + f) / 2 * (2 * A) <= 1 * (2 * A)) by (apply Rmult_le_compat_r; lra). lra. }
  destruct (plus_round x y Fx Fy (rnd_fits _ W)) as [F V]. split; [exact F|]. split; [exact Bs|]. rewrite V.
  apply (round_scaled _ _ _ ((e + f) / 2)); lra.
Qed.
Lemma scaled_minus x y r s A e f : scaled x r A e -> scaled y s A f -> 0 <= e <= 1e-4 -> 0 <= f <= 1e-4 -> 1e-90 <= A <= 1e100 ->
  scaled (Bminus mode_NE x y) (r - s) (2 * A) ((e + f) / 2 + 1.12e-16).
Proof.
  intros (Fx & Bx & Ex) (Fy & By & Ey) He Hf HA. abs Bx. abs By. abs Ex. abs Ey.
  assert (Bs : Rabs (r - s) <= 2 * A) by (apply Rabs_le; lra).
  assert (P : Rabs (B2R x - B2R y - (r - s)) <= (e + f) / 2 * (2 * A)) by (apply Rabs_le; lra).
  assert (W : Rabs (B2R x - B2R y) <= 1e200).
  { replace (B2R x - B2R y) with (B2R x - B2R y - (r - s) + (r - s)) by ring. eapply Rle_trans; [apply Rabs_triang|].
    assert ((e + f) / 2 * (2 * A) <= 1 * (2 * A)) by (apply Rmult_le_compat_r; lra). lra. }
  destruct (minus_round x y Fx Fy W) as [F V]. split; [exact F|]. split; [exact Bs|]. rewrite V.
  apply (round_scaled _ _ _ ((e + f) / 2)); lra.
Qed.

(** Divisors of at least [M]. *)
Lemma scaled_div x y r s A B M e f g : scaled x r A e -> scaled y s B f -> M <= s -> f * B <= g * M -> 0 <= e <= 1e-4 -> 0 <= g <= 1e-4 -> 0 <= A -> 0 < M -> 1e-90 <= A / M <= 1e100 ->
  scaled (Bdiv mode_NE x y) (r / s) (A / M) (1.002 * (e + g) + 1.12e-16).
Proof.
  intros (Fx & Bx & Ex) (Fy & By & Ey) Hs Hg He Hg' HA HM HAB.
  assert (AM : A / M * M = A) by (field; lra).
  assert (Bs : Rabs (r / s) <= A / M).
  { unfold Rdiv at 1. rewrite Rabs_mult, (Rabs_pos_eq (/ s)) by (left; apply Rinv_0_lt_compat; lra).
    apply Rmult_le_reg_r with s; [lra|]. rewrite Rmult_assoc, Rinv_l by lra. rewrite Rmult_1_r. eapply Rle_trans; [exact Bx|].
    apply Rle_trans with (A / M * M); [lra|]. apply Rmult_le_compat_l; lra. }
  assert (gM : g * M <= 1e-4 * M) by (apply Rmult_le_compat_r; lra).
  assert (Yl : 0.9999 * M <= B2R y) by (abs Ey; lra).
  assert (P : Rabs (B2R x / B2R y - r / s) <= 1.002 * (e + g) * (A / M)).
  { replace (B2R x / B2R y - r / s) with (((B2R x - r) - r / s * (B2R y - s)) * / B2R y) by (field; split; lra).
    rewrite Rabs_mult, (Rabs_pos_eq (/ B2R y)) by (left; apply Rinv_0_lt_compat; lra).
    assert (N : Rabs (B2R x - r - r / s * (B2R y - s)) <= e * A + A / M * (g * M)).
    { unfold Rminus at 1. eapply Rle_trans; [apply Rabs_triang|]. rewrite Rabs_Ropp, (Rabs_mult (r / s)).
      apply Rplus_le_compat; [exact Ex|]. apply Rmult_le_compat; try apply Rabs_pos; [exact Bs|lra]. }
    replace (A / M * (g * M)) with (g * A) in N by (rewrite <- AM at 1; ring).
    apply Rmult_le_reg_r with (B2R y); [lra|]. rewrite Rmult_assoc, Rinv_l, Rmult_1_r by lra. eapply Rle_trans; [exact N|].
    apply Rle_trans with (1.002 * (e + g) * (A / M) * (0.9999 * M)).
    - replace (1.002 * (e + g) * (A / M) * (0.9999 * M)) with (1.002 * 0.9999 * (e + g) * (A / M * M)) by ring. rewrite AM.
      assert (0 <= e * A) by (apply Rmult_le_pos; lra). assert (0 <= g * A) by (apply Rmult_le_pos; lra). lra.
    - apply Rmult_le_compat_l; [|exact Yl]. apply Rmult_le_pos; lra. }
  assert (W : Rabs (B2R x / B2R y) <= 1e200).
  { replace (B2R x / B2R y) with (B2R x / B2R y - r / s + r / s) by ring. eapply Rle_trans; [apply Rabs_triang|].
    assert (1.002 * (e + g) * (A / M) <= 1 * (A / M)) by (apply Rmult_le_compat_r; lra). lra. }
  destruct (div_round x y Fx ltac:(lra) (rnd_fits _ W)) as [F V]. split; [exact F|]. split; [exact Bs|]. rewrite V.
  apply (round_scaled _ _ _ (1.002 * (e + g))); lra.
Qed.

(** Square roots of numbers of at least a sixteenth of their scale [B * B]. *)
Lemma scaled_sqrt x r B e : scaled x r (B * B) e -> B * B / 16 <= r -> 0 <= e <= 1e-5 -> 1e-50 <= B <= 1e50 ->
  scaled (Bsqrt mode_NE x) (sqrt r) B (2.02 * e + 1.12e-16) /\ B / 4 <= sqrt r.
Proof.
  intros (Fx & Bx & Ex) Hr He HB. set (Q := B * B) in *. assert (Q0 : 0 < Q) by (unfold Q; apply Rmult_lt_0_compat; lra). abs Bx.
  assert (eQ : e * Q <= 1e-5 * Q) by (apply Rmult_le_compat_r; lra).
  assert (X0 : 0 < B2R x) by (abs Ex; lra).
  assert (S1 : sqrt r <= B). { rewrite <- (sqrt_square B) by lra. apply sqrt_le_1_alt. fold Q. lra. }
  assert (S2 : B / 4 <= sqrt r). { rewrite <- (sqrt_square (B / 4)) by lra. apply sqrt_le_1_alt. replace (B / 4 * (B / 4)) with (Q / 16) by (unfold Q; field). lra. }
  split; [|exact S2].
  assert (S3 : 0.99 * (B / 4) <= sqrt (B2R x)).
  { rewrite <- (sqrt_square (0.99 * (B / 4))) by lra. apply sqrt_le_1_alt. replace (0.99 * (B / 4) * (0.99 * (B / 4))) with (0.9801 * (Q / 16)) by (unfold Q; lra). abs Ex. lra. }
  assert (P : Rabs (sqrt (B2R x) - sqrt r) <= 2.02 * e * B).
  { assert (Sx := sqrt_lt_R0 _ X0). replace (sqrt (B2R x) - sqrt r) with ((B2R x - r) * / (sqrt (B2R x) + sqrt r)).
    2: { rewrite <- (sqrt_sqrt (B2R x)) at 1 by lra. rewrite <- (sqrt_sqrt r) at 1 by lra. field. lra. }
    rewrite Rabs_mult, (Rabs_pos_eq (/ _)) by (left; apply Rinv_0_lt_compat; lra).
    apply Rmult_le_reg_r with (sqrt (B2R x) + sqrt r); [lra|]. rewrite Rmult_assoc, Rinv_l, Rmult_1_r by lra. eapply Rle_trans; [exact Ex|].
    apply Rle_trans with (2.02 * e * B * (1.99 * (B / 4))).
    - replace (2.02 * e * B * (1.99 * (B / 4))) with (2.02 * 1.99 / 4 * (e * Q)) by (unfold Q; lra). assert (0 <= e * Q) by (apply Rmult_le_pos; lra). 
      apply Rle_trans with (1 * (e * Q)); [lra|].  apply Rmult_le_compat_r; [assumption|]. lra.
    - apply Rmult_le_compat_l; [|lra]. apply Rmult_le_pos; lra. }
  pose proof (Bsqrt_correct 53 1024 _ _ mode_NE x) as (V & F & _). cbn [round_mode] in V.
  split. { rewrite F. destruct x as [s|s| |s m ex b]; try discriminate Fx; [reflexivity|]. destruct s; [|reflexivity].
    exfalso. revert X0. apply Rle_not_lt. cbn. apply F2R_le_0. cbn. lia. }
  split; [rewrite Rabs_pos_eq; [exact S1|apply sqrt_pos]|]. rewrite V.
  apply (round_scaled _ _ _ (2.02 * e)); [exact P|rewrite Rabs_pos_eq; [exact S1|apply sqrt_pos]|lra|lra|reflexivity].
Qed.

(** ** Real functions *)
Lemma sin_step x y : Rabs (sin x - sin y) <= Rabs (x - y).
Proof.
  destruct (Rtotal_order x y) as [H|[->|H]].
  - destruct (MVT_cor2 sin cos x y H (fun c _ => derivable_pt_lim_sin c)) as (c & E & _).
    rewrite (Rabs_minus_sym (sin x)), E, Rabs_mult, (Rabs_minus_sym x). rewrite <- (Rmult_1_l (Rabs (y - x))) at 2.
    apply Rmult_le_compat_r; [apply Rabs_pos|apply Rabs_le, COS_bound].
  - rewrite !Rminus_eq_0. lra.
  - destruct (MVT_cor2 sin cos y x H (fun c _ => derivable_pt_lim_sin c)) as (c & E & _).
    rewrite E, Rabs_mult. rewrite <- (Rmult_1_l (Rabs (x - y))) at 2.
    apply Rmult_le_compat_r; [apply Rabs_pos|apply Rabs_le, COS_bound].
Qed.
Lemma cos_step x y : Rabs (cos x - cos y) <= Rabs (x - y).
Proof. rewrite !cos_sin. eapply Rle_trans; [apply sin_step|]. right. f_equal. ring. Qed.

Lemma slope c : 0 < 1 + c * c /\ Rabs c / (1 + c * c) <= / 2 /\ / (1 + c * c) <= 1.
Proof.
  assert (0 <= c * c) by apply Rle_0_sqr. split; [lra|]. split.
  - apply Rmult_le_reg_r with (1 + c * c); [lra|]. unfold Rdiv. rewrite Rmult_assoc, Rinv_l by lra.
    assert (N : Rabs c * Rabs c = c * c) by (rewrite <- Rabs_mult; apply Rabs_pos_eq; lra).
    assert (0 <= (Rabs c - 1) * (Rabs c - 1)) by apply Rle_0_sqr. lra.
  - rewrite <- Rinv_1. apply Rinv_le_contravar; lra.
Qed.
Lemma atan_step p q e t : Rabs (q - p) <= e * Rabs p + t -> 0 <= e <= 1e-3 -> 0 <= t -> Rabs (atan q - atan p) <= 0.51 * e + 2 * t.
Proof.
  intros D He Ht.
  assert (G : forall c, Rabs (c - p) <= Rabs (q - p) -> Rabs (/ (1 + c * c) * (q - p)) <= 0.51 * e + 2 * t).
  { intros c Hc. destruct (slope c) as (S0 & S1 & S2). rewrite Rabs_mult, (Rabs_pos_eq (/ _)) by (left; apply Rinv_0_lt_compat; lra).
    assert (I0 : 0 < / (1 + c * c)) by (apply Rinv_0_lt_compat; lra).
    assert (P : Rabs p <= Rabs c + (e * Rabs p + t)).
    { replace p with (c - (c - p)) at 1 by ring. unfold Rminus at 1. eapply Rle_trans; [apply Rabs_triang|]. rewrite Rabs_Ropp. lra. }
    assert (P0 := Rabs_pos p). assert (e * Rabs p <= 1e-3 * Rabs p) by (apply Rmult_le_compat_r; lra).
    assert (P1 : Rabs p <= 1.0011 * Rabs c + 1.0011 * t) by (pose proof (Rabs_pos c); lra).
    assert (Q : Rabs (q - p) <= e * (1.0011 * Rabs c + 1.0011 * t) + t).
    { eapply Rle_trans; [exact D|]. apply Rplus_le_compat_r. apply Rmult_le_compat_l; lra. }
    apply Rle_trans with (/ (1 + c * c) * (e * (1.0011 * Rabs c + 1.0011 * t) + t)); [apply Rmult_le_compat_l; lra|].
    replace (/ (1 + c * c) * (e * (1.0011 * Rabs c + 1.0011 * t) + t)) with (1.0011 * e * (Rabs c / (1 + c * c)) + (1.0011 * (e * t) + t) * / (1 + c * c)) by (field; lra).
    assert (0 <= e * t <= 1e-3 * t) by (split; [apply Rmult_le_pos; lra|apply Rmult_le_compat_r; lra]).
    assert (1.0011 * e * (Rabs c / (1 + c * c)) <= 1.0011 * e * / 2) by (apply Rmult_le_compat_l; lra).
    assert ((1.0011 * (e * t) + t) * / (1 + c * c) <= (1.0011 * (e * t) + t) * 1) by (apply Rmult_le_compat_l; lra). lra. }
  destruct (Rtotal_order p q) as [H|[->|H]].
  - destruct (MVT_cor2 atan (fun x => / (1 + x ^ 2)) p q H) as (c & E & Hc).
    { intros c _. exact (derivable_pt_lim_atan c). }
    rewrite E. replace (c ^ 2) with (c * c) by ring. apply G. rewrite !Rabs_pos_eq; lra.
  - rewrite !Rminus_eq_0, Rabs_R0. lra.
  - destruct (MVT_cor2 atan (fun x => / (1 + x ^ 2)) q p H) as (c & E & Hc).
    { intros c _. exact (derivable_pt_lim_atan c). }
    rewrite Rabs_minus_sym, E. replace (c ^ 2) with (c * c) by ring.
    replace (/ (1 + c * c) * (p - q)) with (- (/ (1 + c * c) * (q - p))) by ring. rewrite Rabs_Ropp. apply G. rewrite !Rabs_left1; lra.
Qed.

Lemma hypot_step x y a b : Rabs (hypot x y - hypot a b) <= Rabs (x - a) + Rabs (y - b).
Proof.
  assert (T : forall x y a b, hypot x y - hypot a b <= Rabs (x - a) + Rabs (y - b)).
  { clear. intros x y a b.
    assert (H : hypot x y <= hypot a b + (Rabs (x - a) + Rabs (y - b))).
    { unfold hypot at 1. assert (Q := Rle_0_sqr a). assert (Q' := Rle_0_sqr b). unfold Rsqr in *.
      set (h := hypot a b). assert (h0 : 0 <= h) by apply sqrt_pos. assert (hh : h * h = a * a + b * b) by (apply sqrt_sqrt; lra).
      assert (ha : Rabs a <= h). { rewrite <- (sqrt_square (Rabs a)) by apply Rabs_pos. apply sqrt_le_1_alt. rewrite <- Rabs_mult, Rabs_pos_eq; lra. }
      assert (hb : Rabs b <= h). { rewrite <- (sqrt_square (Rabs b)) by apply Rabs_pos. apply sqrt_le_1_alt. rewrite <- Rabs_mult, Rabs_pos_eq; lra. }
      set (p := Rabs (x - a)). set (q := Rabs (y - b)). assert (p0 : 0 <= p) by apply Rabs_pos. assert (q0 : 0 <= q) by apply Rabs_pos.
      assert (X : Rabs x <= Rabs a + p) by (unfold p; replace x with (a + (x - a)) at 1 by ring; apply Rabs_triang).
      assert (Y : Rabs y <= Rabs b + q) by (unfold q; replace y with (b + (y - b)) at 1 by ring; apply Rabs_triang).
      rewrite <- (sqrt_square (h + (p + q))) by lra. apply sqrt_le_1_alt.
      assert (XX : x * x <= (Rabs a + p) * (Rabs a + p)).
      { rewrite <- (Rabs_pos_eq (x * x)), Rabs_mult by apply Rle_0_sqr. apply Rmult_le_compat; try apply Rabs_pos; exact X. }
      assert (YY : y * y <= (Rabs b + q) * (Rabs b + q)).
      { rewrite <- (Rabs_pos_eq (y * y)), Rabs_mult by apply Rle_0_sqr. apply Rmult_le_compat; try apply Rabs_pos; exact Y. }
      assert (AA : Rabs a * Rabs a = a * a) by (rewrite <- Rabs_mult; apply Rabs_pos_eq; lra).
      assert (BB : Rabs b * Rabs b = b * b) by (rewrite <- Rabs_mult; apply Rabs_pos_eq; lra).
      assert (Rabs a * p <= h * p) by (apply Rmult_le_compat_r; lra). assert (Rabs b * q <= h * q) by (apply Rmult_le_compat_r; lra).
      assert (0 <= p * q) by (apply Rmult_le_pos; lra). lra. }
    lra. }
  apply Rabs_le. pose proof (T x y a b). pose proof (T a b x y) as U. rewrite (Rabs_minus_sym a), (Rabs_minus_sym b) in U. lra.
Qed.

(** The tangent of the double next to pi/2 is large, but no larger than that. *)
Lemma pi2_below : 1.570796326794896557 <= B2R d_pi2 <= 1.57079632679489656.
Proof.
  destruct (parts d_pi2) as [[m e]|] eqn:P; vm_compute in P; [|discriminate P].
  destruct (parts_value d_pi2 _ _ P) as [F V]. injection P as <- <-. rewrite V. cbn -[IZR]. lra.
Qed.
Lemma below_pole x : Rabs x <= B2R d_pi2 -> - (PI / 2) < x < PI / 2.
Proof. intros H. pose proof pi_between. pose proof pi2_below. abs H. lra. Qed.
Lemma sin_low g : 0 <= g <= 1 -> g / 2 <= sin g.
Proof.
  intros H. pose proof pi_between as P. destruct (sin_bound g 0 ltac:(lra) ltac:(lra)) as [B _].
  unfold sin_approx, sin_term in B. cbn [sum_f_R0 Nat.add Nat.mul pow fact] in B. cbn [INR] in B. assert (g * (g * g) <= g * 1) by (apply Rmult_le_compat_l; [lra|]; assert (g * g <= 1 * 1) by (apply Rmult_le_compat; lra); lra). lra.
Qed.
Lemma tan_large x : Rabs x <= B2R d_pi2 -> Rabs (tan x) <= 1e17.
Proof.
  intros H. pose proof (below_pole _ H) as B. assert (C : 1e-17 <= cos x).
  { pose proof pi_between as P. pose proof pi2_below as Q.
    replace (cos x) with (cos (Rabs x)) by (unfold Rabs; destruct Rcase_abs; [apply cos_neg|reflexivity]).
    apply Rle_trans with (cos (B2R d_pi2)).
    - rewrite cos_sin. replace (PI / 2 + B2R d_pi2) with (PI - (PI / 2 - B2R d_pi2)) by field. rewrite sin_PI_x.
      eapply Rle_trans; [|apply sin_low]; lra.
    - apply cos_decr_1; pose proof (Rabs_pos x); lra. }
  unfold tan, Rdiv. rewrite Rabs_mult, Rabs_inv, (Rabs_pos_eq (cos x)) by lra.
  apply Rmult_le_reg_r with (cos x); [lra|]. rewrite Rmult_assoc, Rinv_l by lra. assert (Rabs (sin x) <= 1) by (apply Rabs_le, SIN_bound). lra.
Qed.

Lemma tan_slope c : - (PI / 2) < c < PI / 2 -> derivable_pt_lim tan c (1 + tan c ^ 2).
Proof.
  intros H. assert (C : 0 < cos c) by (apply cos_gt_0; lra).
  pose proof (derivable_pt_lim_div sin cos c _ _ (derivable_pt_lim_sin c) (derivable_pt_lim_cos c) ltac:(lra)) as D.
  replace (1 + tan c ^ 2) with ((cos c * cos c - - sin c * sin c) / Rsqr (cos c)); [exact D|].
  unfold tan, Rsqr. field. lra.
Qed.
(** Latitudes of the two kinds differ by at most four times as much. *)
Lemma ktan_step_open k x y : / 4 <= k <= 4 -> - (PI / 2) < x < PI / 2 -> - (PI / 2) < y < PI / 2 -> x < y ->
  Rabs (atan_ktan k x - atan_ktan k y) <= 4 * Rabs (x - y).
Proof.
  intros Hk Hx Hy H. rewrite (open_ktan k x Hx), (open_ktan k y Hy).
  destruct (MVT_cor2 (fun z => atan (k * tan z)) (fun c => / (1 + (k * tan c) ^ 2) * (k * (1 + tan c ^ 2))) x y H) as (c & E & Hc).
  { intros c Hc. apply (derivable_pt_lim_comp (fun z => k * tan z) atan).
    - apply (derivable_pt_lim_scal tan k). apply tan_slope. lra.
    - exact (derivable_pt_lim_atan (k * tan c)). }
  rewrite Rabs_minus_sym, (Rabs_minus_sym x). cbv beta in E. rewrite E, Rabs_mult. apply Rmult_le_compat_r; [apply Rabs_pos|].
  set (t := tan c). assert (T : 0 <= t * t) by apply Rle_0_sqr. assert (kk : k * / 4 <= k * k) by (apply Rmult_le_compat_l; lra).
  assert (k2 : 0 <= k * k * (t * t)) by (apply Rmult_le_pos; lra). assert (kt : k * / 4 * (t * t) <= k * k * (t * t)) by (apply Rmult_le_compat_r; lra).
  assert (kt0 : 0 <= k * (t * t)) by (apply Rmult_le_pos; lra).
  replace ((k * t) ^ 2) with (k * k * (t * t)) by ring. replace (t ^ 2) with (t * t) by ring.
  rewrite Rabs_pos_eq. 2: { apply Rmult_le_pos; [left; apply Rinv_0_lt_compat; lra|lra]. }
  apply Rmult_le_reg_l with (1 + k * k * (t * t)); [lra|]. rewrite <- Rmult_assoc, Rinv_r by lra. lra.
Qed.
Lemma ktan_step k x y : / 4 <= k <= 4 -> - (PI / 2) < x < PI / 2 -> - (PI / 2) < y < PI / 2 ->
  Rabs (atan_ktan k x - atan_ktan k y) <= 4 * Rabs (x - y).
Proof.
  intros Hk Hx Hy. destruct (Rtotal_order x y) as [H|[->|H]].
  - apply ktan_step_open; assumption.
  - rewrite !Rminus_eq_0, Rabs_R0. lra.
  - rewrite Rabs_minus_sym, (Rabs_minus_sym x). apply ktan_step_open; assumption.
Qed.
Lemma ktan_opp k x : - (PI / 2) <= x <= PI / 2 -> atan_ktan k (- x) = - atan_ktan k x.
Proof.
  intros H. unfold atan_ktan. rewrite cos_neg, sin_neg, tan_neg. destruct (Req_bool_spec (cos x) 0) as [C|C].
  - pose proof (sin2_cos2 x) as S. rewrite C in S. unfold Rsqr in S. assert (sin x <> 0) by (intros Z; rewrite Z in S; lra).
    destruct (Rlt_bool_spec 0 (sin x)); [rewrite Rlt_bool_false by lra|rewrite Rlt_bool_true by lra]; lra.
  - replace (k * - tan x) with (- (k * tan x)) by ring. apply atan_opp.
Qed.
Lemma ktan_pole k : atan_ktan k (PI / 2) = PI / 2.
Proof. unfold atan_ktan. rewrite cos_PI2, Req_bool_true, sin_PI2, Rlt_bool_true by lra. reflexivity. Qed.
Lemma ktan_end k x : / 4 <= k <= 4 -> 0 < x < PI / 2 -> Rabs (atan_ktan k x - PI / 2) <= 4 * Rabs (x - PI / 2).
Proof.
  intros Hk Hx. assert (T : 0 < tan x) by (apply tan_gt_0; lra). rewrite (open_ktan k x) by lra.
  assert (K0 : 0 < k * tan x) by (apply Rmult_lt_0_compat; lra).
  assert (C : 0 < cos x) by (apply cos_gt_0; lra). assert (S : 0 < sin x) by (apply sin_gt_0; pose proof PI_RGT_0; lra).
  assert (R : atan_ktan (/ k) (PI / 2 - x) = PI / 2 - atan (k * tan x)).
  { rewrite <- atan_inv by exact K0. rewrite open_ktan by lra. f_equal. unfold tan. rewrite sin_shift, cos_shift. field. repeat split; lra. }
  assert (Hk' : / 4 <= / k <= 4).
  { split; [apply Rinv_le; lra|]. replace 4 with (/ / 4) by field. apply Rinv_le; lra. }
  pose proof (ktan_step (/ k) (PI / 2 - x) 0 Hk' ltac:(lra) ltac:(lra)) as Q. rewrite R, (open_ktan _ 0), tan_0, Rmult_0_r, atan_0 in Q by lra.
  rewrite !Rminus_0_r in Q. rewrite Rabs_minus_sym, (Rabs_minus_sym x). exact Q.
Qed.
Lemma ktan_step_up k x : / 4 <= k <= 4 -> - (PI / 2) < x < PI / 2 -> Rabs (atan_ktan k x - PI / 2) <= 4 * Rabs (x - PI / 2).
Proof.
  intros Hk Hx. destruct (Rlt_le_dec 0 x) as [H|H]; [apply ktan_end; lra|]. pose proof PI_RGT_0 as P0.
  pose proof (ktan_step k x (PI / 4) Hk Hx ltac:(lra)) as A. pose proof (ktan_end k (PI / 4) Hk ltac:(lra)) as B.
  rewrite (Rabs_left (x - PI / 4)) in A by lra. rewrite (Rabs_left (PI / 4 - PI / 2)) in B by lra. rewrite (Rabs_left (x - PI / 2)) by lra.
  replace (atan_ktan k x - PI / 2) with (atan_ktan k x - atan_ktan k (PI / 4) + (atan_ktan k (PI / 4) - PI / 2)) by ring.
  eapply Rle_trans; [apply Rabs_triang|]. lra.
Qed.
Lemma ktan_step_to k x y : / 4 <= k <= 4 -> - (PI / 2) < x < PI / 2 -> - (PI / 2) <= y <= PI / 2 ->
  Rabs (atan_ktan k x - atan_ktan k y) <= 4 * Rabs (x - y).
Proof.
  intros Hk Hx Hy. destruct (Rlt_le_dec y (PI / 2)) as [H|H].
  - destruct (Rlt_le_dec (- (PI / 2)) y) as [L|L]; [apply ktan_step; lra|]. assert (y = - (PI / 2)) as -> by lra.
    rewrite ktan_opp, ktan_pole by lra. pose proof (ktan_step_up k (- x) Hk ltac:(lra)) as Q. rewrite ktan_opp in Q by lra.
    rewrite <- (Rabs_Ropp (_ - _)), <- (Rabs_Ropp (x - _)).
    replace (- (atan_ktan k x - - (PI / 2))) with (- atan_ktan k x - PI / 2) by ring. replace (- (x - - (PI / 2))) with (- x - PI / 2) by ring. exact Q.
  - assert (y = PI / 2) as -> by lra. rewrite ktan_pole. apply ktan_step_up; assumption.
Qed.

(** ** The functions of bodies *)
Lemma square_value (x y : double) : is_finite x = true -> is_finite y = true -> 0 < B2R y -> / 2 <= B2R x / B2R y <= 2 ->
  is_finite (Bdiv mode_NE x y) = true /\ Rabs (B2R (Bdiv mode_NE x y) - B2R x / B2R y) <= 1.2e-16 * (B2R x / B2R y).
Proof.
  intros Fx Fy Hy Q. assert (W : Rabs (B2R x / B2R y) <= 1e200) by (rewrite Rabs_pos_eq; lra).
  destruct (div_round x y Fx ltac:(lra) (rnd_fits _ W)) as [F V]. split; [exact F|]. rewrite V.
  eapply Rle_trans; [apply rnd_rel|]. rewrite Rabs_pos_eq by lra. rewrite u_value. pose proof eta_tiny. lra.
Qed.

Section Library.
Context (L : libm ar_double) (arctan : double -> double) (GL : good_library L arctan).

Lemma latitude_near (x y lat : double) : is_finite x = true -> is_finite y = true -> 0 < B2R y -> / 2 <= B2R x / B2R y <= 2 ->
  is_finite lat = true -> Rabs (B2R lat) <= B2R d_pi2 ->
  let r := arctan (Bmult mode_NE (dpow L (Bdiv mode_NE x y) (double_of_Z 2)) (dtan L lat)) in
  nearly r (atan_ktan ((B2R x / B2R y) ^ 2) (B2R lat)) 3e-15 /\ Rabs (B2R r) <= B2R d_pi2.
Proof.
  intros Fx Fy Hy Q Fl Hl r. rewrite open_ktan by (apply below_pole; exact Hl).
  destruct (square_value x y Fx Fy Hy Q) as [Fq Eq]. set (q := B2R x / B2R y) in *. set (dq := Bdiv mode_NE x y) in *. abs Eq.
  destruct (gl_square L arctan GL dq Fq ltac:(lra)) as [Fp Ep]. fold (dpow L dq (double_of_Z 2)) in Fp, Ep. set (dp := dpow L dq (double_of_Z 2)) in *.
  destruct (gl_tan L arctan GL lat Fl Hl) as [Ft Et]. fold (dtan L lat) in Ft, Et. set (dt := dtan L lat) in *.
  pose proof (tan_large _ Hl) as TL. set (t := tan (B2R lat)) in *.
  assert (P1 : Rabs (B2R dp - q ^ 2) <= 1.25e-15 * q ^ 2).
  { abs Ep. assert (q2 : 0 <= q * q) by (apply Rmult_le_pos; lra).
    assert (D2 : q * q * (1 - 2.41e-16) <= B2R dq * B2R dq <= q * q * (1 + 2.41e-16)).
    { assert (q * (1 - 1.2e-16) * (q * (1 - 1.2e-16)) <= B2R dq * B2R dq) by (apply Rmult_le_compat; lra).
      assert (B2R dq * B2R dq <= q * (1 + 1.2e-16) * (q * (1 + 1.2e-16))) by (apply Rmult_le_compat; lra). lra. }
    apply Rabs_le. replace (q ^ 2) with (q * q) by ring. replace (B2R dq ^ 2) with (B2R dq * B2R dq) in Ep by ring. lra. }
  assert (q20 : 0 < q ^ 2 <= 4). { replace (q ^ 2) with (q * q) by ring. split; [apply Rmult_lt_0_compat; lra|]. assert (q * q <= 2 * 2) by (apply Rmult_le_compat; lra). lra. }
  set (k := q ^ 2) in *.
  assert (P2 : Rabs (B2R dp * B2R dt - k * t) <= 2.26e-15 * Rabs (k * t) + 5e-100).
  { rewrite (Rabs_mult k t), (Rabs_pos_eq k) by lra.
    replace (B2R dp * B2R dt - k * t) with ((B2R dp - k) * B2R dt + k * (B2R dt - t)) by ring. eapply Rle_trans; [apply Rabs_triang|].
    rewrite !Rabs_mult, (Rabs_pos_eq k) by lra.
    assert (T : Rabs (B2R dt) <= 1.001 * Rabs t + 1e-100). { replace (B2R dt) with (B2R dt - t + t) by ring. eapply Rle_trans; [apply Rabs_triang|]. pose proof (Rabs_pos t). lra. }
    assert (Rabs (B2R dp - k) * Rabs (B2R dt) <= 1.25e-15 * k * (1.001 * Rabs t + 1e-100)) by (apply Rmult_le_compat; try apply Rabs_pos; assumption).
    assert (k * Rabs (B2R dt - t) <= k * (1e-15 * Rabs t + 1e-100)) by (apply Rmult_le_compat_l; lra).
    assert (0 <= k * Rabs t) by (apply Rmult_le_pos; [lra|apply Rabs_pos]). lra. }
  assert (KT : Rabs (k * t) <= 4e17). { rewrite Rabs_mult, (Rabs_pos_eq k) by lra. assert (k * Rabs t <= 4 * 1e17) by (apply Rmult_le_compat; try apply Rabs_pos; lra). lra. }
  assert (V0 : Rabs (B2R dp * B2R dt) <= (1 + 2.26e-15) * Rabs (k * t) + 5e-100).
  { replace (B2R dp * B2R dt) with (B2R dp * B2R dt - k * t + k * t) by ring. eapply Rle_trans; [apply Rabs_triang|]. lra. }
  destruct (mult_round dp dt Fp Ft (rnd_fits (B2R dp * B2R dt) ltac:(lra))) as [F V].
  destruct (gl_arctan L arctan GL _ F) as [[Fa Ea] Ba]. fold r in Fa, Ea, Ba. split; [|exact Ba]. split; [exact Fa|].
  assert (P3 : Rabs (B2R (Bmult mode_NE dp dt) - k * t) <= 2.4e-15 * Rabs (k * t) + 1e-99).
  { rewrite V. pose proof (rnd_rel (B2R dp * B2R dt)) as N. rewrite u_value in N. pose proof eta_tiny.
    replace (rnd (B2R dp * B2R dt) - k * t) with (rnd (B2R dp * B2R dt) - B2R dp * B2R dt + (B2R dp * B2R dt - k * t)) by ring.
    eapply Rle_trans; [apply Rabs_triang|]. pose proof (Rabs_pos (k * t)). lra. }
  pose proof (atan_step _ _ _ _ P3 ltac:(lra) ltac:(lra)) as S1.
  replace (B2R r - atan (k * t)) with (B2R r - atan (B2R (Bmult mode_NE dp dt)) + (atan (B2R (Bmult mode_NE dp dt)) - atan (k * t))) by ring.
  eapply Rle_trans; [apply Rabs_triang|]. lra.
Qed.

(** [w] is how far angles may be off. *)
Context (w : R) (Hw : 0 <= w <= 1e-6).

Lemma sin_near (x : double) r e : is_finite x = true -> Rabs (B2R x) <= 16 -> Rabs (B2R x - r) <= e -> scaled (dsin L x) (sin r) 1 (1e-15 + e).
Proof.
  intros F B E. destruct (gl_sin L arctan GL x F ltac:(lra)) as [F' E']. split; [exact F'|]. split; [apply Rabs_le, SIN_bound|].
  unfold dsin. replace (B2R (l_sin L x : double) - sin r) with (B2R (l_sin L x : double) - sin (B2R x) + (sin (B2R x) - sin r)) by ring.
  eapply Rle_trans; [apply Rabs_triang|]. pose proof (sin_step (B2R x) r). lra.
Qed.
Lemma cos_near (x : double) r e : is_finite x = true -> Rabs (B2R x) <= 40 -> Rabs (B2R x - r) <= e -> scaled (dcos L x) (cos r) 1 (1e-15 + e).
Proof.
  intros F B E. destruct (gl_cos L arctan GL x F B) as [F' E']. split; [exact F'|]. split; [apply Rabs_le, COS_bound|].
  unfold dcos. replace (B2R (l_cos L x : double) - cos r) with (B2R (l_cos L x : double) - cos (B2R x) + (cos (B2R x) - cos r)) by ring.
  eapply Rle_trans; [apply Rabs_triang|]. pose proof (cos_step (B2R x) r). lra.
Qed.
Lemma sin_to (x : double) r : toward w x r -> scaled (dsin L x) (sin r) 1 (1e-15 + w).
Proof. intros (F & B & E). apply sin_near; assumption. Qed.
Lemma cos_to (x : double) r : toward w x r -> scaled (dcos L x) (cos r) 1 (1e-15 + w).
Proof. intros (F & B & E). apply cos_near; [assumption|lra|assumption]. Qed.
Lemma turn_to (x y : double) r s : toward w x r -> toward w y s -> scaled (dcos L (Bminus mode_NE x y)) (cos (r - s)) 1 (4.7e-15 + 2 * w).
Proof.
  intros (Fx & Bx & Ex) (Fy & By & Ey). abs Bx. abs By. assert (W : Rabs (B2R x - B2R y) <= 32) by (apply Rabs_le; lra).
  destruct (minus_round x y Fx Fy ltac:(lra)) as [F V].
  assert (E0 : Rabs (B2R (Bminus mode_NE x y) - (B2R x - B2R y)) <= 3.6e-15).
  { rewrite V. eapply Rle_trans; [apply rnd_rel|]. rewrite u_value. pose proof eta_tiny. lra. }
  abs E0. abs W. abs Ex. abs Ey.
  eapply scaled_weaken; [apply (cos_near _ (r - s) (3.6e-15 + 2 * w) F)|lra|lra]; apply Rabs_le; lra.
Qed.

Context (eq pol : double) (BS : body_size eq pol).
Local Notation Re := (B2R eq).
Local Notation Rp := (B2R pol).
Local Notation upon := (upon w).

Lemma ratio_bounds : / 2 <= Re / Rp <= 2 /\ / 2 <= Rp / Re <= 2 /\ 0 < Re /\ 0 < Rp.
Proof.
  destruct BS as (_ & _ & H1 & H2 & H3). assert (0 < Rp) by lra. assert (0 < Re) by lra.
  assert (A : Re / Rp * Rp = Re) by (field; lra). assert (B : Rp / Re * Re = Rp) by (field; lra).
  split; [split; apply Rmult_le_reg_r with Rp; lra|]. split; [split; apply Rmult_le_reg_r with Re; lra|]. lra.
Qed.
Lemma square_bounds q : / 2 <= q <= 2 -> / 4 <= q ^ 2 <= 4.
Proof. intros H. replace (q ^ 2) with (q * q) by ring. assert (/ 2 * / 2 <= q * q) by (apply Rmult_le_compat; lra). assert (q * q <= 2 * 2) by (apply Rmult_le_compat; lra). lra. Qed.
Lemma kind_near (x y la : double) rla : is_finite x = true -> is_finite y = true -> 0 < B2R y -> / 2 <= B2R x / B2R y <= 2 -> upon la rla ->
  let r := arctan (Bmult mode_NE (dpow L (Bdiv mode_NE x y) (double_of_Z 2)) (dtan L la)) in
  nearly r (atan_ktan ((B2R x / B2R y) ^ 2) rla) (3e-15 + 4 * w) /\ Rabs (B2R r) <= B2R d_pi2.
Proof.
  intros Fx Fy Hy Q ([F B] & Hr & E). destruct (latitude_near x y la Fx Fy Hy Q F B) as [[Fn En] Bn]. cbv zeta. split; [|exact Bn]. split; [exact Fn|].
  pose proof (ktan_step_to _ (B2R la) rla (square_bounds _ Q) (below_pole _ B) Hr) as S1.
  match goal with |- Rabs (?a - ?b) <= _ => replace (a - b) with (a - atan_ktan ((B2R x / B2R y) ^ 2) (B2R la) + (atan_ktan ((B2R x / B2R y) ^ 2) (B2R la) - b)) by ring end.
  eapply Rle_trans; [apply Rabs_triang|]. lra.
Qed.
Lemma graphic_near (la : double) rla : upon la rla ->
  nearly (double_graphic L arctan eq pol la) (graphic_latitude Re Rp rla) (3e-15 + 4 * w) /\ Rabs (B2R (double_graphic L arctan eq pol la)) <= B2R d_pi2.
Proof. intros U. destruct ratio_bounds as (R1 & R2 & R3 & R4). destruct BS as (Fe & Fp & _). apply (kind_near eq pol); assumption. Qed.
Lemma centric_near (la : double) rla : upon la rla ->
  nearly (double_centric L arctan eq pol la) (centric_latitude Re Rp rla) (3e-15 + 4 * w) /\ Rabs (B2R (double_centric L arctan eq pol la)) <= B2R d_pi2.
Proof. intros U. destruct ratio_bounds as (R1 & R2 & R3 & R4). destruct BS as (Fe & Fp & _). apply (kind_near pol eq); assumption. Qed.
Lemma upon_to (la : double) rla : upon la rla -> toward w la rla.
Proof. intros ([F B] & _ & E). split; [exact F|]. pose proof pi2_below. split; [lra|exact E]. Qed.

Lemma mu0_near (sla slo la lo : double) rsla rslo rla rlo : toward w sla rsla -> toward w slo rslo -> upon la rla -> toward w lo rlo ->
  nearly (double_mu0 L arctan eq pol sla slo la lo) (mu0 Re Rp rsla rslo rla rlo) (2e-14 + 13 * w).
Proof.
  intros A1 A2 A3 A4. destruct (graphic_near la rla A3) as [[Fg Eg] Bg]. unfold double_mu0, mu0. cbv zeta.
  set (g := double_graphic L arctan eq pol la) in *. set (rg := graphic_latitude Re Rp rla) in *. pose proof pi2_below as P2.
  pose proof (sin_near g rg _ Fg ltac:(lra) Eg) as Sg. pose proof (cos_near g rg _ Fg ltac:(lra) Eg) as Cg.
  pose proof (scaled_mult _ _ _ _ _ _ _ _ (sin_to _ _ A1) Sg ltac:(lra) ltac:(lra) ltac:(lra) ltac:(lra) ltac:(lra)) as T1.
  pose proof (scaled_mult _ _ _ _ _ _ _ _ (cos_to _ _ A1) Cg ltac:(lra) ltac:(lra) ltac:(lra) ltac:(lra) ltac:(lra)) as T2.
  pose proof (scaled_mult _ _ _ _ _ _ _ _ T2 (turn_to _ _ _ _ A2 A4) ltac:(lra) ltac:(lra) ltac:(lra) ltac:(lra) ltac:(lra)) as T3.
  pose proof (scaled_weaken _ _ _ _ 1 (5.2e-15 + 5.1 * w) T1 ltac:(lra) ltac:(lra)) as W1. pose proof (scaled_weaken _ _ _ _ 1 (1.1e-14 + 7.1 * w) T3 ltac:(lra) ltac:(lra)) as W3.
  destruct (scaled_plus _ _ _ _ _ _ _ W1 W3 ltac:(lra) ltac:(lra) ltac:(lra)) as (F & _ & E). split; [exact F|]. eapply Rle_trans; [exact E|]. lra.
Qed.

Lemma double_scaled (x : double) : is_finite x = true -> 0 <= B2R x -> scaled x (B2R x) (B2R x) 0.
Proof. intros F H. split; [exact F|]. rewrite Rabs_pos_eq by exact H. rewrite Rminus_eq_0, Rabs_R0. lra. Qed.
Lemma number_scaled z : (z = 1 \/ z = 2)%Z -> scaled (double_of_Z z) (IZR z) (IZR z) 0.
Proof.
  intros Hz. assert (E : B2R (double_of_Z z) = IZR z) by (apply double_of_Z_exact; destruct Hz; subst; lia).
  rewrite <- E. apply double_scaled; [destruct Hz; subst; reflexivity|rewrite E; destruct Hz; subst; lra].
Qed.

(** The radius at a latitude. *)
Lemma radius_near (la : double) rla : upon la rla ->
  scaled (double_radius L eq pol la) (centric_radius Re Rp rla) Re (7e-15 + 4 * w).
Proof.
  intros U. pose proof (upon_to _ _ U) as A. destruct ratio_bounds as (_ & _ & E0 & P0). destruct BS as (Fe & Fp & H1 & H2 & H3).
  assert (IE : Re * / Re = 1) by (apply Rinv_r; lra). assert (IP : Rp * / Rp = 1) by (apply Rinv_r; lra).
  assert (ie0 : 0 < / Re) by (apply Rinv_0_lt_compat; lra). assert (ip0 : 0 < / Rp) by (apply Rinv_0_lt_compat; lra).
  assert (ip1 : / Re <= / Rp) by (apply Rinv_le_contravar; lra).
  assert (ip2 : / Rp <= 2 * / Re). { apply Rmult_le_reg_r with (Re * Rp); [apply Rmult_lt_0_compat; lra|]. replace (/ Rp * (Re * Rp)) with (Re * (Rp * / Rp)) by ring. replace (2 * / Re * (Re * Rp)) with (2 * (Re * / Re) * Rp) by ring. rewrite IE, IP. lra. }
  assert (ip3 : / Rp <= 1e3). { apply Rmult_le_reg_r with Rp; [lra|]. rewrite Rinv_l by lra. lra. }
  assert (ie1 : 1e-9 <= / Re). { apply Rmult_le_reg_r with Re; [lra|]. rewrite Rinv_l by lra. lra. }
  pose proof (scaled_div _ _ _ _ _ _ Re _ _ 0 (cos_to _ _ A) (double_scaled eq Fe ltac:(lra)) ltac:(lra) ltac:(lra) ltac:(lra) ltac:(lra) ltac:(lra) E0 ltac:(unfold Rdiv; lra)) as X.
  pose proof (scaled_div _ _ _ _ _ _ Rp _ _ 0 (sin_to _ _ A) (double_scaled pol Fp ltac:(lra)) ltac:(lra) ltac:(lra) ltac:(lra) ltac:(lra) ltac:(lra) P0 ltac:(unfold Rdiv; lra)) as Y.
  unfold Rdiv in X at 2, Y at 2. rewrite Rmult_1_l in X, Y.
  set (c := cos rla) in *. set (s := sin rla) in *.
  pose proof (scaled_value _ _ _ _ X ltac:(lra)) as XV. pose proof (scaled_value _ _ _ _ Y ltac:(lra)) as YV.
  destruct X as (FX & BX & EX). destruct Y as (FY & BY & EY).
  set (x := Bdiv mode_NE (dcos L la) eq) in *. set (y := Bdiv mode_NE (dsin L la) pol) in *.
  assert (we : 0 <= w * / Re) by (apply Rmult_le_pos; lra). assert (wp : w * / Rp <= w * (2 * / Re)) by (apply Rmult_le_compat_l; lra).
  assert (we' : w * / Re <= 1e-6 * / Re) by (apply Rmult_le_compat_r; lra).
  destruct (gl_hypot L arctan GL x y FX FY ltac:(lra) ltac:(lra)) as [FH EH]. fold (dhypot L x y) in FH, EH.
  pose proof (hypot_step (B2R x) (B2R y) (c / Re) (s / Rp)) as HS. set (h := hypot (c / Re) (s / Rp)) in *.
  assert (HL : / Re <= h <= 2 * / Re).
  { assert (PY : s * s + c * c = 1) by (pose proof (sin2_cos2 rla) as Q; unfold Rsqr in Q; exact Q).
    assert (S0 : 0 <= s * s) by apply Rle_0_sqr. assert (C0 : 0 <= c * c) by apply Rle_0_sqr.
    assert (J1 : / Re * / Re <= / Rp * / Rp) by (apply Rmult_le_compat; lra).
    assert (J2 : / Rp * / Rp <= 2 * / Re * (2 * / Re)) by (apply Rmult_le_compat; lra).
    assert (K : c / Re * (c / Re) + s / Rp * (s / Rp) = c * c * (/ Re * / Re) + s * s * (/ Rp * / Rp)) by (unfold Rdiv; ring).
    assert (K1 : s * s * (/ Re * / Re) <= s * s * (/ Rp * / Rp)) by (apply Rmult_le_compat_l; lra).
    assert (K2 : s * s * (/ Rp * / Rp) <= s * s * (2 * / Re * (2 * / Re))) by (apply Rmult_le_compat_l; lra).
    assert (K3 : 0 <= c * c * (/ Re * / Re)) by (apply Rmult_le_pos; [lra|apply Rmult_le_pos; lra]).
    assert (K4 : (s * s + c * c) * (/ Re * / Re) = / Re * / Re) by (rewrite PY; ring).
    unfold h, hypot. rewrite K. split.
    - rewrite <- (sqrt_square (/ Re)) at 1 by lra. apply sqrt_le_1_alt. lra.
    - rewrite <- (sqrt_square (2 * / Re)) by lra. apply sqrt_le_1_alt. lra. }
  assert (HX : Rabs (B2R x - c / Re) <= (1.2e-15 + 1.01 * w) * / Re) by lra. assert (HY : Rabs (B2R y - s / Rp) <= (2.4e-15 + 2.02 * w) * / Re) by lra.
  assert (SH : scaled (dhypot L x y) h (2 * / Re) (2.9e-15 + 1.6 * w)).
  { split; [exact FH|]. split; [rewrite Rabs_pos_eq; lra|]. abs HS. abs EH. apply Rabs_le.
    pose proof (Rabs_pos (B2R x - c / Re)). pose proof (Rabs_pos (B2R y - s / Rp)). lra. }
  assert (QM : IZR 1 / / Re = Re) by (field; lra).
  pose proof (scaled_div _ _ _ _ _ _ (/ Re) _ _ (5.8e-15 + 3.2 * w) (number_scaled 1 (or_introl eq_refl)) SH ltac:(lra) ltac:(lra) ltac:(lra) ltac:(lra) ltac:(lra) ie0 ltac:(rewrite QM; lra)) as Q.
  rewrite QM in Q. eapply scaled_weaken; [exact Q|lra|]. apply Rmult_le_compat_r; lra.
Qed.

(** The cosine of the angle between two directions. *)
Lemma between_near (a b c d : double) ra rb rc rd : toward w a ra -> toward w b rb -> toward w c rc -> toward w d rd ->
  scaled (Bplus mode_NE (Bmult mode_NE (dsin L a) (dsin L b)) (Bmult mode_NE (Bmult mode_NE (dcos L a) (dcos L b)) (dcos L (Bminus mode_NE c d))))
    (sin ra * sin rb + cos ra * cos rb * cos (rc - rd)) 2 (5e-15 + 3.1 * w) /\
  scaled (Bplus mode_NE (Bmult mode_NE (Bmult mode_NE (dcos L a) (dcos L b)) (dcos L (Bminus mode_NE c d))) (Bmult mode_NE (dsin L a) (dsin L b)))
    (cos ra * cos rb * cos (rc - rd) + sin ra * sin rb) 2 (5e-15 + 3.1 * w).
Proof.
  intros A1 A2 A3 A4.
  pose proof (scaled_mult _ _ _ _ _ _ _ _ (sin_to _ _ A1) (sin_to _ _ A2) ltac:(lra) ltac:(lra) ltac:(lra) ltac:(lra) ltac:(lra)) as T1.
  pose proof (scaled_mult _ _ _ _ _ _ _ _ (cos_to _ _ A1) (cos_to _ _ A2) ltac:(lra) ltac:(lra) ltac:(lra) ltac:(lra) ltac:(lra)) as T2.
  pose proof (scaled_mult _ _ _ _ _ _ _ _ T2 (turn_to _ _ _ _ A3 A4) ltac:(lra) ltac:(lra) ltac:(lra) ltac:(lra) ltac:(lra)) as T3.
  pose proof (scaled_weaken _ _ _ _ 1 (2.2e-15 + 2.01 * w) T1 ltac:(lra) ltac:(lra)) as W1. pose proof (scaled_weaken _ _ _ _ 1 (7.2e-15 + 4.02 * w) T3 ltac:(lra) ltac:(lra)) as W3.
  split; (eapply scaled_weaken; [first [exact (scaled_plus _ _ _ _ _ _ _ W1 W3 ltac:(lra) ltac:(lra) ltac:(lra))|exact (scaled_plus _ _ _ _ _ _ _ W3 W1 ltac:(lra) ltac:(lra) ltac:(lra))]|lra|lra]).
Qed.
Lemma between_real a b d : -1 <= sin a * sin b + cos a * cos b * cos d <= 1.
Proof.
  pose proof (sin2_cos2 a) as P. pose proof (sin2_cos2 b) as Q. unfold Rsqr in P, Q. pose proof (COS_bound d) as D.
  set (sa := sin a) in *. set (ca := cos a) in *. set (sb := sin b) in *. set (cb := cos b) in *. set (cd := cos d) in *.
  assert (0 <= (sa - sb) * (sa - sb)) by apply Rle_0_sqr. assert (0 <= (sa + sb) * (sa + sb)) by apply Rle_0_sqr.
  assert (H1 : Rabs (ca * cb * cd) <= Rabs (ca * cb)).
  { rewrite Rabs_mult. rewrite <- (Rmult_1_r (Rabs (ca * cb))) at 2. apply Rmult_le_compat_l; [apply Rabs_pos|apply Rabs_le; lra]. }
  assert (H2 : Rabs (ca * cb) <= (ca * ca + cb * cb) / 2).
  { apply Rabs_le. assert (0 <= (ca - cb) * (ca - cb)) by apply Rle_0_sqr. assert (0 <= (ca + cb) * (ca + cb)) by apply Rle_0_sqr. lra. }
  assert (H3 := Rle_trans _ _ _ H1 H2). abs H3. lra.
Qed.

(** The distance from the point to the observer. *)
Lemma away_near (so_lat so_lon la lo range : double) rso_lat rso_lon rla rlo :
  toward w so_lat rso_lat -> toward w so_lon rso_lon -> upon la rla -> toward w lo rlo -> distance range eq ->
  let r := centric_radius Re Rp rla in
  let rr := sqrt (B2R range * B2R range + r * r - 2 * B2R range * r * (sin rso_lat * sin rla + cos rso_lat * cos rla * cos (rso_lon - rlo))) in
  scaled (Bsqrt mode_NE (Bminus mode_NE (Bplus mode_NE (Bmult mode_NE range range) (Bmult mode_NE (double_radius L eq pol la) (double_radius L eq pol la)))
    (Bmult mode_NE (Bmult mode_NE (Bmult mode_NE (double_of_Z 2) range) (double_radius L eq pol la))
      (Bplus mode_NE (Bmult mode_NE (dsin L so_lat) (dsin L la)) (Bmult mode_NE (Bmult mode_NE (dcos L so_lat) (dcos L la)) (dcos L (Bminus mode_NE so_lon lo)))))))
    rr (2 * B2R range) (2e-14 + 10 * w) /\ B2R range / 2 <= rr.
Proof.
  intros A1 A2 A3 A4 [FR HR] r rr. pose proof (radius_near la rla A3) as SR. fold r in SR. set (dr := double_radius L eq pol la) in *.
  destruct ratio_bounds as (_ & _ & E0 & P0). destruct BS as (Fe & Fp & H1 & H2 & H3). set (Rr := B2R range) in *.
  assert (RB : Rp <= r <= Re) by (apply radius_between; lra).
  assert (eR : 0 <= Re * Re) by apply Rle_0_sqr.
  assert (Q1 : 4 * (Re * Re) <= Rr * Rr) by (assert (2 * Re * (2 * Re) <= Rr * Rr) by (apply Rmult_le_compat; lra); lra).
  assert (Q2 : 2 * (Rr * Re) <= Rr * Rr) by (assert (Rr * (2 * Re) <= Rr * Rr) by (apply Rmult_le_compat_l; lra); lra).
  assert (Q3 : 1e-6 <= Re * Re) by (assert (1e-3 * 1e-3 <= Re * Re) by (apply Rmult_le_compat; lra); lra).
  assert (Q4 : Rr * Rr <= 1e40) by (assert (Rr * Rr <= 1e20 * 1e20) by (apply Rmult_le_compat; lra); lra).
  assert (Q5 : Re * Re <= Rr * Re) by (apply Rmult_le_compat_r; lra).
  assert (w1 : w * (4 * (Re * Re)) <= w * (Rr * Rr)) by (apply Rmult_le_compat_l; lra).
  assert (w2 : w * (2 * (Rr * Re)) <= w * (Rr * Rr)) by (apply Rmult_le_compat_l; lra).
  assert (w3 : 0 <= w * (Rr * Rr)) by (apply Rmult_le_pos; lra).
  pose proof (double_scaled range FR ltac:(fold Rr; lra)) as SG. fold Rr in SG.
  pose proof (scaled_mult _ _ _ _ _ _ _ _ SG SG ltac:(lra) ltac:(lra) ltac:(lra) ltac:(lra) ltac:(lra)) as T1.
  pose proof (scaled_mult _ _ _ _ _ _ _ _ SR SR ltac:(lra) ltac:(lra) ltac:(lra) ltac:(lra) ltac:(lra)) as T2.
  pose proof (scaled_weaken _ _ _ _ (Rr * Rr) (3.6e-15 + 2.1 * w) T2 ltac:(lra) ltac:(lra)) as W2.
  pose proof (scaled_plus _ _ _ _ _ _ _ T1 W2 ltac:(lra) ltac:(lra) ltac:(lra)) as T3.
  pose proof (scaled_mult _ _ _ _ _ _ _ _ (number_scaled 2 (or_intror eq_refl)) SG ltac:(lra) ltac:(lra) ltac:(lra) ltac:(lra) ltac:(lra)) as T4.
  pose proof (scaled_mult _ _ _ _ _ _ _ _ T4 SR ltac:(lra) ltac:(lra) ltac:(lra) ltac:(lra) ltac:(lra)) as T5.
  pose proof (scaled_mult _ _ _ _ _ _ _ _ T5 (proj1 (between_near so_lat la so_lon lo _ _ _ _ A1 (upon_to _ _ A3) A2 A4)) ltac:(lra) ltac:(lra) ltac:(lra) ltac:(lra) ltac:(lra)) as T6.
  pose proof (scaled_weaken _ _ _ _ (2 * (Rr * Rr)) (2e-15 + 1.1 * w) T3 ltac:(lra) ltac:(lra)) as W3.
  pose proof (scaled_weaken _ _ _ _ (2 * (Rr * Rr)) (1.3e-14 + 7.2 * w) T6 ltac:(lra) ltac:(lra)) as W6.
  pose proof (scaled_minus _ _ _ _ _ _ _ W3 W6 ltac:(lra) ltac:(lra) ltac:(lra)) as T7.
  pose proof (scaled_weaken _ _ _ _ (2 * Rr * (2 * Rr)) (8e-15 + 4.2 * w) T7 ltac:(lra) ltac:(lra)) as W7.
  pose proof (between_real rso_lat rla (rso_lon - rlo)) as C.
  set (cc := sin rso_lat * sin rla + cos rso_lat * cos rla * cos (rso_lon - rlo)) in *.
  assert (LB : 2 * Rr * (2 * Rr) / 16 <= Rr * Rr + r * r - 2 * Rr * r * cc).
  { assert (0 <= Rr * r) by (apply Rmult_le_pos; lra). assert (Rr * r * cc <= Rr * r * 1) by (apply Rmult_le_compat_l; lra).
    assert (Rr / 2 * (Rr / 2) <= (Rr - r) * (Rr - r)) by (apply Rmult_le_compat; lra). lra. }
  destruct (scaled_sqrt _ _ (2 * Rr) _ W7 LB ltac:(lra) ltac:(lra)) as [S1 S2]. split; [|unfold rr; lra].
  eapply scaled_weaken; [exact S1|lra|]. apply Rmult_le_compat_r; lra.
Qed.

Lemma mu_near (so_lat so_lon la lo range : double) rso_lat rso_lon rla rlo :
  toward w so_lat rso_lat -> toward w so_lon rso_lon -> upon la rla -> toward w lo rlo -> distance range eq ->
  nearly (double_mu L arctan eq pol so_lat so_lon la lo range) (mu Re Rp rso_lat rso_lon rla rlo (B2R range)) (1e-12 + 500 * w).
Proof.
  intros A1 A2 A3 A4 D. pose proof (away_near so_lat so_lon la lo range _ _ _ _ A1 A2 A3 A4 D) as [S1 S2].
  pose proof (radius_near la rla A3) as SR. destruct (graphic_near la rla A3) as [[Fg Eg] Bg]. unfold double_mu, mu. cbv zeta in *.
  set (r := centric_radius Re Rp rla) in *. set (dr := double_radius L eq pol la) in *.
  set (g := double_graphic L arctan eq pol la) in *. set (rg := graphic_latitude Re Rp rla) in *. pose proof pi2_below as P2.
  set (den := Bsqrt mode_NE _) in *. set (rden := sqrt _) in *.
  destruct ratio_bounds as (_ & _ & E0 & P0). destruct BS as (Fe & Fp & H1 & H2 & H3). destruct D as [FR HR]. set (Rr := B2R range) in *.
  assert (w1 : w * (2 * Re) <= w * Rr) by (apply Rmult_le_compat_l; lra). assert (w2 : 0 <= w * Rr) by (apply Rmult_le_pos; lra).
  pose proof (double_scaled range FR ltac:(fold Rr; lra)) as SG. fold Rr in SG.
  pose proof (sin_near g rg _ Fg ltac:(lra) Eg) as Sg. pose proof (cos_near g rg _ Fg ltac:(lra) Eg) as Cg.
  assert (Sd : scaled (dcos L (Bminus mode_NE la g)) (cos (rla - rg)) 1 (4.4e-15 + 5 * w)).
  { destruct A3 as ([Fl Bl] & _ & El). abs Bl. abs Bg. assert (W : Rabs (B2R la - B2R g) <= 3.2) by (apply Rabs_le; lra).
    destruct (minus_round la g Fl Fg ltac:(lra)) as [F V].
    assert (N : Rabs (B2R (Bminus mode_NE la g) - (B2R la - B2R g)) <= 3.6e-16).
    { rewrite V. eapply Rle_trans; [apply rnd_rel|]. rewrite u_value. pose proof eta_tiny. lra. }
    abs N. abs W. abs Eg. abs El.
    eapply scaled_weaken; [apply (cos_near _ (rla - rg) (3.4e-15 + 5 * w) F)|lra|lra]; apply Rabs_le; lra. }
  pose proof (scaled_mult _ _ _ _ _ _ _ _ SG (sin_to _ _ A1) ltac:(lra) ltac:(lra) ltac:(lra) ltac:(lra) ltac:(lra)) as T1.
  pose proof (scaled_mult _ _ _ _ _ _ _ _ T1 Sg ltac:(lra) ltac:(lra) ltac:(lra) ltac:(lra) ltac:(lra)) as T2.
  pose proof (scaled_mult _ _ _ _ _ _ _ _ SR Sd ltac:(lra) ltac:(lra) ltac:(lra) ltac:(lra) ltac:(lra)) as T3.
  pose proof (scaled_mult _ _ _ _ _ _ _ _ SG (cos_to _ _ A1) ltac:(lra) ltac:(lra) ltac:(lra) ltac:(lra) ltac:(lra)) as T4.
  pose proof (scaled_mult _ _ _ _ _ _ _ _ T4 Cg ltac:(lra) ltac:(lra) ltac:(lra) ltac:(lra) ltac:(lra)) as T5.
  pose proof (scaled_mult _ _ _ _ _ _ _ _ T5 (turn_to _ _ _ _ A2 A4) ltac:(lra) ltac:(lra) ltac:(lra) ltac:(lra) ltac:(lra)) as T6.
  pose proof (scaled_weaken _ _ _ _ Rr (5.4e-15 + 5.1 * w) T2 ltac:(lra) ltac:(lra)) as W2.
  pose proof (scaled_weaken _ _ _ _ Rr (6e-15 + 4.6 * w) T3 ltac:(lra) ltac:(lra)) as W3.
  pose proof (scaled_minus _ _ _ _ _ _ _ W2 W3 ltac:(lra) ltac:(lra) ltac:(lra)) as T7.
  pose proof (scaled_weaken _ _ _ _ (2 * Rr) (6e-15 + 5 * w) T7 ltac:(lra) ltac:(lra)) as W7.
  pose proof (scaled_weaken _ _ _ _ (2 * Rr) (5.3e-15 + 3.6 * w) T6 ltac:(lra) ltac:(lra)) as W6.
  pose proof (scaled_plus _ _ _ _ _ _ _ W7 W6 ltac:(lra) ltac:(lra) ltac:(lra)) as T8.
  assert (QQ : 2 * (2 * Rr) / (Rr / 2) = 8) by (field; lra).
  destruct (scaled_div _ _ _ _ _ _ (Rr / 2) _ _ (8e-14 + 40 * w) T8 S1 S2 ltac:(lra) ltac:(lra) ltac:(lra) ltac:(lra) ltac:(lra) ltac:(rewrite QQ; lra)) as (F & _ & E).
  rewrite QQ in E. split; [exact F|]. eapply Rle_trans; [exact E|]. lra.
Qed.

Lemma cos_phase_near (so_lat so_lon ss_lat ss_lon la lo range : double) rso_lat rso_lon rss_lat rss_lon rla rlo :
  toward w so_lat rso_lat -> toward w so_lon rso_lon -> toward w ss_lat rss_lat -> toward w ss_lon rss_lon ->
  upon la rla -> toward w lo rlo -> distance range eq ->
  nearly (double_cos_phase L eq pol so_lat so_lon ss_lat ss_lon la lo range)
    (cos_phase Re Rp rso_lat rso_lon rss_lat rss_lon rla rlo (B2R range)) (1e-12 + 500 * w).
Proof.
  intros A1 A2 A1' A2' A3 A4 D. pose proof (away_near so_lat so_lon la lo range _ _ _ _ A1 A2 A3 A4 D) as [S1 S2].
  pose proof (radius_near la rla A3) as SR. unfold double_cos_phase, cos_phase. cbv zeta in *.
  set (r := centric_radius Re Rp rla) in *. set (dr := double_radius L eq pol la) in *.
  set (den := Bsqrt mode_NE _) in *. set (rden := sqrt _) in *.
  destruct ratio_bounds as (_ & _ & E0 & P0). destruct BS as (Fe & Fp & H1 & H2 & H3). destruct D as [FR HR]. set (Rr := B2R range) in *.
  assert (w1 : w * (2 * Re) <= w * Rr) by (apply Rmult_le_compat_l; lra). assert (w2 : 0 <= w * Rr) by (apply Rmult_le_pos; lra).
  pose proof (double_scaled range FR ltac:(fold Rr; lra)) as SG. fold Rr in SG.
  pose proof (scaled_mult _ _ _ _ _ _ _ _ SG (proj2 (between_near so_lat ss_lat so_lon ss_lon _ _ _ _ A1 A1' A2 A2')) ltac:(lra) ltac:(lra) ltac:(lra) ltac:(lra) ltac:(lra)) as T1.
  pose proof (scaled_mult _ _ _ _ _ _ _ _ SR (proj2 (between_near la ss_lat lo ss_lon _ _ _ _ (upon_to _ _ A3) A1' A4 A2')) ltac:(lra) ltac:(lra) ltac:(lra) ltac:(lra) ltac:(lra)) as T2.
  pose proof (scaled_weaken _ _ _ _ (2 * Rr) (5.2e-15 + 3.2 * w) T1 ltac:(lra) ltac:(lra)) as W1.
  pose proof (scaled_weaken _ _ _ _ (2 * Rr) (6.2e-15 + 3.7 * w) T2 ltac:(lra) ltac:(lra)) as W2.
  pose proof (scaled_minus _ _ _ _ _ _ _ W1 W2 ltac:(lra) ltac:(lra) ltac:(lra)) as T8.
  assert (QQ : 2 * (2 * Rr) / (Rr / 2) = 8) by (field; lra).
  destruct (scaled_div _ _ _ _ _ _ (Rr / 2) _ _ (8e-14 + 40 * w) T8 S1 S2 ltac:(lra) ltac:(lra) ltac:(lra) ltac:(lra) ltac:(lra) ltac:(rewrite QQ; lra)) as (F & _ & E).
  rewrite QQ in E. split; [exact F|]. eapply Rle_trans; [exact E|]. lra.
Qed.
End Library.
