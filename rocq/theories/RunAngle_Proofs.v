(** Rounding errors of the angles of a simple cylindrical map: used by the
    proofs of C101 and C102. *)
From Coq Require Import List ZArith Reals Bool Lra Lia Psatz.
From Flocq Require Import Core BinarySingleNaN Relative.
From Verif Require Import Base BaseFacts Flt FltFacts Num Maths_Model Maths_Proofs Spheroid_Model Extrema_Model Proj_Model
  Virtual_Model Virtual_Spec Virtual_Proofs VirtualPlane_Proofs Run_Spec.
Import ListNotations.
Open Scope R_scope.

#[local] Existing Instance prec53.
#[local] Existing Instance emax53.
Local Notation rnd := (round radix2 (SpecFloat.fexp 53 1024) ZnearestE).
#[local] Instance valid53 : Valid_exp (SpecFloat.fexp 53 1024) := fexp_correct 53 1024 eq_refl.

(** ** One rounded operation *)
Definition u := bpow radix2 (-53).
Definition eta := bpow radix2 (-1075).
Lemma u_value : u = / 9007199254740992. Proof. reflexivity. Qed.
Lemma eta_small : 0 < eta <= / IZR (2 ^ 200).
Proof.
  split; [apply bpow_gt_0|]. unfold eta. change (/ IZR (2 ^ 200)) with (bpow radix2 (-200)). apply bpow_le. lia.
Qed.
Lemma rnd_err x M : Rabs x <= M -> Rabs (rnd x - x) <= M * u + eta.
Proof.
  intros H. destruct (error_N_FLT radix2 (3 - 1024 - 53) 53 eq_refl (fun z => negb (Z.even z)) x) as (e & t & E & T & _ & R).
  change (FLT_exp (3 - 1024 - 53) 53) with (SpecFloat.fexp 53 1024) in R.
  change (ZnearestE) with (Znearest (fun z => negb (Z.even z))).
  change (radix2 : Z) with 2%Z in *.
  assert (E' : Rabs e <= u).
  { eapply Rle_trans; [exact E|]. unfold u, u_ro. right. change (-53 + 1)%Z with (-52)%Z. cbn. lra. }
  assert (T' : Rabs t <= eta).
  { eapply Rle_trans; [exact T|]. right. unfold eta. change (/2) with (bpow radix2 (-1)). rewrite <- bpow_plus. reflexivity. }
  rewrite R. replace (x * (1 + e) + t - x) with (x * e + t) by ring.
  eapply Rle_trans; [apply Rabs_triang|]. rewrite Rabs_mult.
  apply Rplus_le_compat; [|exact T']. apply Rmult_le_compat; try apply Rabs_pos; assumption.
Qed.
Lemma rnd_small x M : Rabs x <= M -> M <= 1e30 -> Rabs (rnd x) < bpow radix2 1024.
Proof.
  intros H HM. pose proof (rnd_err x M H) as E. pose proof eta_small as [_ T]. rewrite u_value in E.
  assert (Rabs (rnd x) <= 2e30).
  { replace (rnd x) with (rnd x - x + x) by ring. eapply Rle_trans; [apply Rabs_triang|].
    assert (/ IZR (2 ^ 200) <= 1). { apply Rmult_le_reg_l with (IZR (2 ^ 200)); [apply IZR_lt; reflexivity|]. rewrite Rinv_r, Rmult_1_r.
      apply IZR_le. discriminate. apply not_0_IZR. discriminate. }
    pose proof (Rabs_pos x). lra. }
  eapply Rle_lt_trans; [eassumption|]. apply Rlt_trans with (bpow radix2 110); [simpl; lra|apply bpow_lt; lia].
Qed.
Lemma mult_near (x y : double) M : is_finite x = true -> is_finite y = true -> Rabs (B2R x * B2R y) <= M -> M <= 1e30 ->
  is_finite (Bmult mode_NE x y) = true /\ Rabs (B2R (Bmult mode_NE x y) - B2R x * B2R y) <= M * u + eta.
Proof.
  intros Fx Fy H HM. destruct (mult_round x y Fx Fy (rnd_small _ M H HM)) as [F ->]. split; [exact F|]. now apply rnd_err.
Qed.
Lemma plus_near (x y : double) M : is_finite x = true -> is_finite y = true -> Rabs (B2R x + B2R y) <= M -> M <= 1e30 ->
  is_finite (Bplus mode_NE x y) = true /\ Rabs (B2R (Bplus mode_NE x y) - (B2R x + B2R y)) <= M * u + eta.
Proof.
  intros Fx Fy H HM. destruct (plus_round x y Fx Fy (rnd_small _ M H HM)) as [F ->]. split; [exact F|]. now apply rnd_err.
Qed.
Lemma minus_near (x y : double) M : is_finite x = true -> is_finite y = true -> Rabs (B2R x - B2R y) <= M -> M <= 1e30 ->
  is_finite (Bminus mode_NE x y) = true /\ Rabs (B2R (Bminus mode_NE x y) - (B2R x - B2R y)) <= M * u + eta.
Proof.
  intros Fx Fy H HM. pose proof (Bminus_correct 53 1024 _ _ mode_NE x y Fx Fy) as C. cbn [round_mode] in C.
  rewrite Rlt_bool_true in C by exact (rnd_small _ M H HM). destruct C as (-> & F & _). split; [exact F|]. now apply rnd_err.
Qed.
Lemma div_near (x y : double) M : is_finite x = true -> B2R y <> 0 -> Rabs (B2R x / B2R y) <= M -> M <= 1e30 ->
  is_finite (Bdiv mode_NE x y) = true /\ Rabs (B2R (Bdiv mode_NE x y) - B2R x / B2R y) <= M * u + eta.
Proof.
  intros Fx Fy H HM. destruct (div_round x y Fx Fy (rnd_small _ M H HM)) as [F ->]. split; [exact F|]. now apply rnd_err.
Qed.

(** ** Constants *)
Lemma degree_val : is_finite d_degree = true /\ 0.0174532925199 <= B2R d_degree <= 0.0174532925200.
Proof.
  destruct (parts d_degree) as [[m e]|] eqn:P; vm_compute in P; [|discriminate P].
  destruct (parts_value (d_degree) _ _ P) as [F V]. injection P as <- <-. split; [exact F|]. rewrite V.
  cbn -[IZR]. lra.
Qed.
Lemma pi2_val : is_finite d_pi2 = true /\ Rabs (B2R d_pi2 - 90 * B2R d_degree) <= 2 * u.
Proof.
  destruct (parts d_degree) as [[m e]|] eqn:P; vm_compute in P; [|discriminate P].
  destruct (parts_value (d_degree) _ _ P) as [_ V]. injection P as <- <-.
  destruct (parts d_pi2) as [[m e]|] eqn:P; vm_compute in P; [|discriminate P].
  destruct (parts_value (d_pi2) _ _ P) as [F W]. injection P as <- <-. split; [exact F|]. rewrite V, W, u_value.
  apply Rabs_le. cbn -[IZR]. lra.
Qed.
Lemma circle_val : is_finite d_circle = true /\ Rabs (B2R d_circle - 360 * B2R d_degree) <= 8 * u.
Proof.
  destruct (parts d_degree) as [[m e]|] eqn:P; vm_compute in P; [|discriminate P].
  destruct (parts_value (d_degree) _ _ P) as [_ V]. injection P as <- <-.
  destruct (parts d_circle) as [[m e]|] eqn:P; vm_compute in P; [|discriminate P].
  destruct (parts_value (d_circle) _ _ P) as [F W]. injection P as <- <-. split; [exact F|]. rewrite V, W, u_value.
  apply Rabs_le. cbn -[IZR]. lra.
Qed.
Lemma half_val : is_finite (half (A := ar_double) : double) = true /\ B2R (half (A := ar_double) : double) = / 2.
Proof.
  destruct (parts (half (A := ar_double))) as [[m e]|] eqn:P; vm_compute in P; [|discriminate P].
  destruct (parts_value (half (A := ar_double)) _ _ P) as [F W]. injection P as <- <-. split; [exact F|]. rewrite W. cbn -[IZR]. lra.
Qed.

(** [k + 0.5] is exact. *)
Lemma middle_val k : (0 <= k < 2 ^ 52)%Z ->
  let x := Bplus mode_NE (double_of_Z k) (half (A := ar_double)) in is_finite x = true /\ B2R x = IZR k + / 2.
Proof.
  intros K. destruct (double_of_Z_exact k) as [Fk Ek]; [lia|]. destruct half_val as [Fh Eh].
  assert (G : rnd (IZR k + / 2) = IZR k + / 2).
  { apply round_generic; [apply valid_rnd_N|].
    replace (IZR k + / 2) with (F2R (Float radix2 (2 * k + 1) (-1))).
    2: { unfold F2R. cbn [Fnum Fexp]. rewrite plus_IZR, mult_IZR. change (bpow radix2 (-1)) with (/ 2). lra. }
    apply (generic_format_FLT radix2 (3 - 1024 - 53) 53). exists (Float radix2 (2 * k + 1) (-1)); [reflexivity| |cbn; lia].
    cbn [Fnum]. change (radix2 : Z) with 2%Z. change (2 ^ 53)%Z with (2 * 2 ^ 52)%Z. lia. }
  assert (Eh' : B2R (half (A := ar_double)) = / 2) by exact Eh.
  pose proof (plus_round (double_of_Z k) (half (A := ar_double)) Fk Fh) as P. rewrite Ek, Eh', G in P. apply P.
  rewrite Rabs_pos_eq. 2: { destruct K as [K _]. apply IZR_le in K. lra. }
  apply Rlt_trans with (bpow radix2 53); [|apply bpow_lt; lia].
  destruct K as [_ K]. apply IZR_lt in K. change (bpow radix2 53) with (IZR (2 * 2 ^ 52)). rewrite mult_IZR. lra.
Qed.

(** ** A point of an interval *)
Local Ltac abs H := apply Rabs_le_inv in H.
Lemma eta_u : eta <= u / 1000000.
Proof.
  pose proof eta_small as [_ T]. rewrite u_value. eapply Rle_trans; [exact T|]. 
  apply Rmult_le_reg_l with (IZR (2 ^ 200)); [apply IZR_lt; reflexivity|]. rewrite Rinv_r by (apply not_0_IZR; discriminate).
  change (IZR (2 ^ 200)) with (IZR 1606938044258990275541962092341162602522202993782792835301376). lra.
Qed.
Lemma many_eta n : (0 <= n < 2 ^ 52)%Z -> IZR n * eta <= u / 1000000.
Proof.
  intros [N0 N]. pose proof eta_small as [T0 T]. apply IZR_lt in N. apply IZR_le in N0.
  apply Rle_trans with (IZR (2 ^ 52) * / IZR (2 ^ 200)).
  - apply Rmult_le_compat; lra.
  - rewrite u_value. apply Rmult_le_reg_r with (IZR (2 ^ 200)); [apply IZR_lt; reflexivity|].
    rewrite Rmult_assoc, Rinv_l, Rmult_1_r by (apply not_0_IZR; discriminate).
    change (IZR (2 ^ 200)) with (IZR 1606938044258990275541962092341162602522202993782792835301376).
    change (IZR (2 ^ 52)) with (IZR 4503599627370496). lra.
Qed.
Lemma u_bounds : 0 < u <= / 1000000000. Proof. rewrite u_value. lra. Qed.

(** The multiple of the step. *)
Lemma step_near (s : double) Q i n : is_finite s = true -> (0 <= i < n)%Z -> (n < 2 ^ 52)%Z -> 1 <= Q <= 1000 -> Rabs (B2R s) <= Q ->
  let m := Bmult mode_NE (Bplus mode_NE (double_of_Z i) (half (A := ar_double))) (Bdiv mode_NE s (double_of_Z n)) in
  is_finite m = true /\ Rabs (B2R m - (IZR i + / 2) / IZR n * B2R s) <= 4 * Q * u /\ Rabs (B2R m) <= 2 * Q.
Proof.
  intros Fs I N HQ S. cbv zeta.
  destruct (middle_val i ltac:(lia)) as [Fi Ei]. destruct (double_of_Z_exact n ltac:(lia)) as [Fn En].
  set (x := Bplus mode_NE (double_of_Z i) (half (A := ar_double))) in *.
  assert (I0 : 0 <= IZR i) by (apply IZR_le; lia).
  assert (I1 : IZR i + 1 <= IZR n) by (rewrite <- plus_IZR; apply IZR_le; lia).
  pose proof u_bounds as U. pose proof eta_u as T. pose proof eta_small as [T0 _].
  pose proof (many_eta n ltac:(lia)) as Tn.
  destruct (div_near s (double_of_Z n) (Rabs (B2R s / IZR n))) as [Fc Ec].
  { exact Fs. } { rewrite En. lra. } { rewrite En. lra. }
  { unfold Rdiv. rewrite Rabs_mult, (Rabs_pos_eq (/ IZR n)) by (left; apply Rinv_0_lt_compat; lra).
    apply Rle_trans with (Q * 1); [|lra]. apply Rmult_le_compat; try apply Rabs_pos; try lra.
    - left; apply Rinv_0_lt_compat; lra.
    - rewrite <- Rinv_1. apply Rinv_le; lra. }
  rewrite En in Ec. set (c := Bdiv mode_NE s (double_of_Z n)) in *.
  assert (D1 : Rabs ((IZR i + / 2) * B2R c - (IZR i + / 2) / IZR n * B2R s) <= Q * u + u / 1000000).
  { replace ((IZR i + / 2) * B2R c - (IZR i + / 2) / IZR n * B2R s) with ((IZR i + / 2) * (B2R c - B2R s / IZR n)) by (field; lra).
    rewrite Rabs_mult, (Rabs_pos_eq (IZR i + / 2)) by lra.
    apply Rle_trans with (IZR n * (Rabs (B2R s / IZR n) * u + eta)).
    - apply Rmult_le_compat; try apply Rabs_pos; lra.
    - unfold Rdiv at 1. rewrite Rabs_mult, (Rabs_pos_eq (/ IZR n)) by (left; apply Rinv_0_lt_compat; lra).
      replace (IZR n * (Rabs (B2R s) * / IZR n * u + eta)) with (Rabs (B2R s) * u + IZR n * eta) by (field; lra).
      apply Rplus_le_compat; [|exact Tn]. apply Rmult_le_compat_r; lra. }
  assert (D2 : Rabs ((IZR i + / 2) / IZR n * B2R s) <= Q).
  { rewrite Rabs_mult. rewrite (Rabs_pos_eq ((IZR i + / 2) / IZR n)).
    - apply Rle_trans with (1 * Q); [|lra]. apply Rmult_le_compat; try apply Rabs_pos; try lra.
      + apply Rmult_le_pos; [lra|left; apply Rinv_0_lt_compat; lra].
      + apply Rmult_le_reg_r with (IZR n); [lra|]. unfold Rdiv. rewrite Rmult_assoc, Rinv_l; lra.
    - apply Rmult_le_pos; [lra|left; apply Rinv_0_lt_compat; lra]. }
  assert (QU : Q * u <= / 1000000).
  { apply Rle_trans with (1000 * / 1000000000); [|lra]. apply Rmult_le_compat; lra. }
  destruct (mult_near x c (Q + / 1000)) as [Fm Em]; try assumption; try lra.
  { rewrite Ei. abs D1. abs D2. apply Rabs_le. lra. }
  split; [exact Fm|]. rewrite Ei in Em. abs Em. abs D1. abs D2.
  assert (QU0 : u <= Q * u) by (rewrite <- (Rmult_1_l u) at 1; apply Rmult_le_compat_r; lra).
  rewrite Rmult_plus_distr_r in Em. replace (4 * Q * u) with (4 * (Q * u)) by ring.
  set (q := Q * u) in *. split; apply Rabs_le; lra.
Qed.

Lemma fraction_bounds i n : (0 <= i < n)%Z -> / (2 * IZR n) <= fraction i n <= 1 - / (2 * IZR n).
Proof.
  intros I. unfold fraction. assert (I0 : 0 <= IZR i) by (apply IZR_le; lia).
  assert (I1 : IZR i + 1 <= IZR n) by (rewrite <- plus_IZR; apply IZR_le; lia).
  split; apply Rmult_le_reg_r with (2 * IZR n); try lra.
  - rewrite Rinv_l by lra. field_simplify; lra.
  - replace ((IZR i + / 2) / IZR n * (2 * IZR n)) with (2 * IZR i + 1) by (field; lra).
    replace ((1 - / (2 * IZR n)) * (2 * IZR n)) with (2 * IZR n - 1) by (field; lra). lra.
Qed.
Lemma fraction_01 i n : (0 <= i < n)%Z -> 0 <= fraction i n <= 1.
Proof.
  intros I. pose proof (fraction_bounds i n I). assert (0 < / (2 * IZR n)).
  { apply Rinv_0_lt_compat. assert (0 < IZR n) by (apply IZR_lt; lia). lra. } lra.
Qed.
Lemma frac_near f x d : 0 <= f <= 1 -> Rabs x <= d -> Rabs (f * x) <= d.
Proof.
  intros F H. rewrite Rabs_mult, (Rabs_pos_eq f) by lra. apply Rle_trans with (1 * d); [|lra].
  apply Rmult_le_compat; try apply Rabs_pos; lra.
Qed.

Lemma line_near (a b : double) A B e Q i n : is_finite a = true -> is_finite b = true ->
  Rabs (B2R a - A) <= e -> Rabs (B2R b - B) <= e -> 1 <= Q <= 500 -> Rabs (B2R a) <= Q -> Rabs (B2R b) <= Q ->
  Rabs (B2R b - B2R a) <= Q -> (0 <= i < n)%Z -> (n < 2 ^ 52)%Z ->
  let m := Bmult mode_NE (Bplus mode_NE (double_of_Z i) (half (A := ar_double))) (Bdiv mode_NE (Bminus mode_NE b a) (double_of_Z n)) in
  let up := Bplus mode_NE m a in let down := Bminus mode_NE b m in
  (is_finite up = true /\ Rabs (B2R up - (A + fraction i n * (B - A))) <= 3 * e + 16 * (Q * u)) /\
  (is_finite down = true /\ Rabs (B2R down - (B - fraction i n * (B - A))) <= 3 * e + 16 * (Q * u)).
Proof.
  intros Fa Fb Ha Hb HQ Ba Bb Bs I N. cbv zeta.
  pose proof u_bounds as U. pose proof eta_u as T. pose proof eta_small as [T0 _].
  assert (QU0 : u <= Q * u) by (rewrite <- (Rmult_1_l u) at 1; apply Rmult_le_compat_r; lra).
  assert (QU : Q * u <= / 1000000).
  { apply Rle_trans with (1000 * / 1000000000); [|lra]. apply Rmult_le_compat; lra. }
  destruct (minus_near b a Q) as [Fs Es]; try assumption; try lra.
  set (s := Bminus mode_NE b a) in *.
  destruct (step_near s (2 * Q) i n) as (Fm & Em & Bm); try assumption; try lra.
  { abs Es. abs Bs. apply Rabs_le. set (q := Q * u) in *. lra. }
  set (m := Bmult mode_NE _ _) in *. fold (fraction i n) in Em.
  assert (S' : Rabs (fraction i n * (B2R s - (B - A))) <= 2 * e + Q * u + eta).
  { apply frac_near; [now apply fraction_01|]. abs Es. abs Ha. abs Hb. apply Rabs_le. lra. }
  rewrite Rmult_minus_distr_l in S'.
  replace (4 * (2 * Q) * u) with (8 * (Q * u)) in Em by ring.
  split.
  - destruct (plus_near m a (5 * Q)) as [F E]; try assumption; try lra.
    { abs Bm. abs Ba. apply Rabs_le. lra. }
    split; [exact F|]. replace (5 * Q * u) with (5 * (Q * u)) in E by ring.
    abs E. abs Em. abs S'. abs Ha. apply Rabs_le. lra.
  - destruct (minus_near b m (5 * Q)) as [F E]; try assumption; try lra.
    { abs Bm. abs Bb. apply Rabs_le. lra. }
    split; [exact F|]. replace (5 * Q * u) with (5 * (Q * u)) in E by ring.
    abs E. abs Em. abs S'. abs Hb. apply Rabs_le. lra.
Qed.

(** ** Degrees and radians *)
Lemma radians_near (x : double) d : is_finite x = true -> Rabs (B2R x) <= IZR d -> (1 <= d <= 1000)%Z ->
  let r := Bmult mode_NE x d_degree in
  is_finite r = true /\ Rabs (B2R r - B2R x * B2R d_degree) <= IZR d / 50 * u + eta /\ Rabs (B2R r) <= IZR d / 57.
Proof.
  intros F H Hd. cbv zeta. destruct degree_val as [FD [D0 D1]].
  pose proof u_bounds as U. pose proof eta_u as T. pose proof eta_small as [T0 _].
  assert (D : 1 <= IZR d <= 1000) by (split; apply IZR_le; lia).
  assert (B : Rabs (B2R x * B2R d_degree) <= IZR d * 0.0174532925200).
  { rewrite Rabs_mult, (Rabs_pos_eq (B2R d_degree)) by lra. apply Rmult_le_compat; try apply Rabs_pos; lra. }
  destruct (mult_near x d_degree (IZR d / 50)) as [Fr Er]; try assumption; try lra.
  split; [exact Fr|]. split; [exact Er|]. abs Er. abs B. apply Rabs_le.
  assert (IZR d / 50 * u <= IZR d / 50 * / 1000000000) by (apply Rmult_le_compat_l; lra). lra.
Qed.

(** The quotient that turns an angle back into degrees. *)
Lemma degrees_near (x : double) r e d : is_finite x = true -> Rabs (B2R x - r * B2R d_degree) <= e -> (1 <= d <= 1000)%Z ->
  Rabs r <= IZR d -> 0 <= e <= / 1000000 ->
  let y := Bdiv mode_NE x d_degree in
  is_finite y = true /\ Rabs (B2R y - r) <= 58 * e + 2 * (IZR d * u).
Proof.
  intros F H Hd R He. cbv zeta. destruct degree_val as [FD [D0 D1]]. set (D := B2R d_degree) in *.
  pose proof u_bounds as U. pose proof eta_u as T. pose proof eta_small as [T0 _].
  assert (HD : 1 <= IZR d <= 1000) by (split; apply IZR_le; lia).
  assert (HU : u <= IZR d * u) by (rewrite <- (Rmult_1_l u) at 1; apply Rmult_le_compat_r; lra).
  assert (Q : Rabs (B2R x / D - r) <= 57.9 * e).
  { replace (B2R x / D - r) with ((B2R x - r * D) * / D) by (field; lra).
    rewrite Rabs_mult, (Rabs_pos_eq (/ D)) by (left; apply Rinv_0_lt_compat; lra).
    rewrite Rmult_comm. apply Rmult_le_compat; try apply Rabs_pos; try assumption.
    - left; apply Rinv_0_lt_compat; lra.
    - apply Rmult_le_reg_r with D; [lra|]. rewrite Rinv_l by lra. lra. }
  destruct (div_near x d_degree (IZR d + / 1000)) as [Fy Ey]; try assumption; fold D; try lra.
  { abs Q. abs R. apply Rabs_le. lra. }
  split; [exact Fy|]. fold D in Ey. abs Ey. abs Q. apply Rabs_le.
  rewrite Rmult_plus_distr_r in Ey. lra.
Qed.

(** ** Latitudes *)
Section Latitude.
Context (lo hi : double) (k n : Z).
Context (Flo : is_finite lo = true) (Fhi : is_finite hi = true) (Blo : Rabs (B2R lo) <= 90) (Bhi : Rabs (B2R hi) <= 90).
Context (K : (0 <= k < n)%Z) (Tall : IZR n * 1e-9 <= Rabs (B2R hi - B2R lo)).
Let a := Bmult mode_NE lo d_degree.
Let b := Bmult mode_NE hi d_degree.
Let lat := Bplus mode_NE (Bmult mode_NE (Bplus mode_NE (double_of_Z k) (half (A := ar_double)))
  (Bdiv mode_NE (Bminus mode_NE b a) (double_of_Z n))) a.
Let exact := B2R lo + fraction k n * (B2R hi - B2R lo).

Lemma lines_small : (n < 2 ^ 52)%Z.
Proof.
  abs Blo. abs Bhi. assert (Rabs (B2R hi - B2R lo) <= 180) by (apply Rabs_le; lra).
  apply lt_IZR. change (IZR (2 ^ 52)) with 4503599627370496. lra.
Qed.
Lemma latitude_margin : Rabs exact <= 90 - 4e-10.
Proof.
  assert (N0 : 0 < IZR n) by (apply IZR_lt; lia).
  pose proof (fraction_bounds k n K) as F. set (f := fraction k n) in *. set (h := / (2 * IZR n)) in *.
  assert (H : 4e-10 <= h * Rabs (B2R hi - B2R lo)).
  { apply Rle_trans with (h * (IZR n * 1e-9)).
    - unfold h. replace (/ (2 * IZR n) * (IZR n * 1e-9)) with (1e-9 / 2) by (field; lra). lra.
    - apply Rmult_le_compat_l; [|exact Tall]. left. apply Rinv_0_lt_compat. lra. }
  abs Blo. abs Bhi. unfold exact. apply Rabs_le.
  assert (h <= / 2). { unfold h. apply Rinv_le; [lra|]. assert (1 <= IZR n) by (apply IZR_le; lia). lra. }
  destruct (Rle_lt_dec 0 (B2R hi - B2R lo)) as [P|P].
  - rewrite Rabs_pos_eq in H by exact P. set (w := B2R hi - B2R lo) in *.
    assert (h * w <= f * w <= (1 - h) * w) by (split; apply Rmult_le_compat_r; lra).
    assert (B2R hi = B2R lo + w) by (unfold w; ring). lra.
  - rewrite Rabs_left in H by exact P. set (w := B2R hi - B2R lo) in *.
    assert (h * - w <= f * - w <= (1 - h) * - w) by (split; apply Rmult_le_compat_r; lra).
    assert (B2R hi = B2R lo + w) by (unfold w; ring). lra.
Qed.
Lemma latitude_near : is_finite lat = true /\ Rabs (B2R lat - exact * B2R d_degree) <= 80 * u /\ Rabs (B2R lat) <= B2R d_pi2.
Proof.
  destruct (radians_near lo 90 Flo Blo ltac:(lia)) as (Fa & Ea & Ba). destruct (radians_near hi 90 Fhi Bhi ltac:(lia)) as (Fb & Eb & Bb).
  fold a in Fa, Ea, Ba. fold b in Fb, Eb, Bb.
  pose proof u_bounds as U. pose proof eta_u as T. pose proof eta_small as [T0 _]. pose proof u_value as UV.
  destruct (line_near a b (B2R lo * B2R d_degree) (B2R hi * B2R d_degree) (2 * u) 4 k n) as [[F E] _]; try assumption.
  { eapply Rle_trans; [exact Ea|]. lra. } { eapply Rle_trans; [exact Eb|]. lra. } { lra. }
  { lra. } { lra. } { abs Ba. abs Bb. apply Rabs_le. lra. } { exact lines_small. }
  fold lat in F, E. split; [exact F|].
  replace (B2R lo * B2R d_degree + fraction k n * (B2R hi * B2R d_degree - B2R lo * B2R d_degree)) with (exact * B2R d_degree) in E
    by (unfold exact; ring).
  assert (E' : Rabs (B2R lat - exact * B2R d_degree) <= 80 * u) by (eapply Rle_trans; [exact E|lra]).
  split; [exact E'|].
  destruct degree_val as [_ [D0 D1]]. destruct pi2_val as [_ P]. pose proof latitude_margin as M.
  assert (X : Rabs (exact * B2R d_degree) <= (90 - 4e-10) * B2R d_degree).
  { rewrite Rabs_mult, (Rabs_pos_eq (B2R d_degree)) by lra. apply Rmult_le_compat_r; lra. }
  abs E'. abs P. abs X. apply Rabs_le. lra.
Qed.

Lemma latitude_read (L : libm ar_double) graphic lon : l_pi2 L = d_pi2 -> l_degree L = d_degree ->
  exists d, latitude_data L graphic false lat lon = Ok (Some d) /\ is_finite d = true /\ -90 <= B2R d <= 90 /\
    Rabs (B2R d - exact) <= 1e-12.
Proof.
  intros HP HD. destruct latitude_near as (F & E & B).
  destruct (latitude_double_range L graphic false lat lon HP HD (finite_not_nan _ F) ltac:(discriminate)) as [R _].
  destruct (R (conj F B)) as (d & Rd & Fd & Bd). exists d. split; [exact Rd|]. split; [exact Fd|]. split; [exact Bd|].
  assert (d = Bdiv mode_NE lat d_degree) as ->.
  { unfold latitude_data in Rd. rewrite HD in Rd. destruct (_ || _) in Rd; [discriminate|]. cbv zeta iota in Rd. symmetry.
    now injection Rd. }
  pose proof u_value as UV. pose proof latitude_margin as M.
  destruct (degrees_near lat exact (80 * u) 90 F E ltac:(lia) ltac:(lra) ltac:(lra)) as [_ Q]. eapply Rle_trans; [exact Q|].
  rewrite UV. lra.
Qed.
End Latitude.

(** ** Longitudes *)
Lemma twopi_val : is_finite d_2pi = true /\ Rabs (B2R d_2pi - 360 * B2R d_degree) <= 8 * u.
Proof.
  destruct (parts d_degree) as [[m e]|] eqn:P; vm_compute in P; [|discriminate P].
  destruct (parts_value (d_degree) _ _ P) as [_ V]. injection P as <- <-.
  destruct (parts d_2pi) as [[m e]|] eqn:P; vm_compute in P; [|discriminate P].
  destruct (parts_value (d_2pi) _ _ P) as [F W]. injection P as <- <-. split; [exact F|]. rewrite V, W, u_value.
  apply Rabs_le. cbn -[IZR]. lra.
Qed.
Lemma abs_val (x : double) : is_finite x = true -> is_finite (Babs x) = true /\ B2R (Babs x) = Rabs (B2R x).
Proof. intros F. rewrite is_finite_Babs, B2R_Babs. auto. Qed.

(** Angles that far apart are not almost equal. *)
Lemma not_almost_equal (x y : double) : is_finite x = true -> is_finite y = true -> Rabs (B2R x) <= 7 -> Rabs (B2R y) <= 7 ->
  1e-12 <= Rabs (B2R y - B2R x) ->
  almost_equal (A := ar_double) eps_double tiny_double x y 2
  || (almost_zero (A := ar_double) eps_double x 2 && almost_zero (A := ar_double) eps_double y 2) = false.
Proof.
  intros Fx Fy Bx By H. pose proof u_bounds as U. pose proof eta_u as T. pose proof eta_small as [T0 _]. pose proof u_value as UV.
  destruct eps_double_val as [Fe Ee]. assert (Ev : B2R eps_double = 2 * u).
  { rewrite Ee. unfold u. change (-52)%Z with (-53 + 1)%Z. rewrite bpow_plus. cbn. lra. }
  destruct (double_of_Z_exact 2 ltac:(lia)) as [F2 E2].
  assert (Ft : is_finite tiny_double = true /\ B2R tiny_double < 1e-13).
  { destruct (parts tiny_double) as [[m e]|] eqn:P; vm_compute in P; [|discriminate P].
    destruct (parts_value tiny_double _ _ P) as [F W]. injection P as <- <-. split; [exact F|]. rewrite W.
    match goal with |- context [bpow radix2 ?z] => assert (bpow radix2 z <= bpow radix2 (-200)) by (apply bpow_le; lia) end.
    match goal with |- IZR ?m * _ < _ => apply Rle_lt_trans with (IZR m * bpow radix2 (-200)); [apply Rmult_le_compat_l; [lra|assumption]|] end.
    change (bpow radix2 (-200)) with (/ IZR (2 ^ 200)).
    change (IZR (2 ^ 200)) with (IZR 1606938044258990275541962092341162602522202993782792835301376). lra. }
  destruct Ft as [Ft Et].
  destruct (minus_near x y 14) as [Fd Ed]; try assumption; try lra. { abs Bx. abs By. apply Rabs_le. lra. }
  destruct (abs_val _ Fd) as [Fd' Ed']. 
  assert (Dl : 9e-13 <= B2R (Babs (Bminus mode_NE x y))).
  { rewrite Ed'. abs Ed. destruct (Rle_lt_dec 0 (B2R y - B2R x)) as [P|P].
    - rewrite Rabs_pos_eq in H by exact P. rewrite Rabs_left; lra.
    - rewrite Rabs_left in H by exact P. rewrite Rabs_pos_eq; lra. }
  destruct (plus_near x y 14) as [Fp Ep]; try assumption; try lra. { abs Bx. abs By. apply Rabs_le. lra. }
  destruct (abs_val _ Fp) as [Fp' Ep'].
  assert (Pl : 0 <= B2R (Babs (Bplus mode_NE x y)) <= 15).
  { rewrite Ep'. split; [apply Rabs_pos|]. abs Ep. abs Bx. abs By. apply Rabs_le. lra. }
  destruct (mult_near eps_double (Babs (Bplus mode_NE x y)) 1) as [Fm Em]; try assumption; try lra.
  { rewrite Ev. rewrite Rabs_pos_eq by (apply Rmult_le_pos; lra). apply Rle_trans with (2 * u * 15); [apply Rmult_le_compat_l; lra|lra]. }
  assert (Ml : Rabs (B2R (Bmult mode_NE eps_double (Babs (Bplus mode_NE x y)))) <= 40 * u).
  { assert (0 <= B2R eps_double * B2R (Babs (Bplus mode_NE x y)) <= 30 * u).
    { rewrite Ev. split; [apply Rmult_le_pos; lra|]. apply Rle_trans with (2 * u * 15); [apply Rmult_le_compat_l; lra|lra]. }
    abs Em. apply Rabs_le. lra. }
  set (p := Bmult mode_NE eps_double (Babs (Bplus mode_NE x y))) in *.
  destruct (mult_near p (double_of_Z 2) 1) as [Fq Eq]; try assumption; try lra.
  { rewrite E2. abs Ml. apply Rabs_le. lra. }
  assert (Ql : B2R (Bmult mode_NE p (double_of_Z 2)) < 9e-13). { rewrite E2 in Eq. abs Eq. abs Ml. lra. }
  apply orb_false_intro.
  - unfold almost_equal. cbn [a_lt a_abs a_sub a_add a_mul a_of_Z ar_double].
    apply orb_false_intro; rewrite flt_spec by (now apply finite_not_nan); rewrite !fval_finite by assumption; apply Rlt_bool_false.
    + fold p. lra.
    + lra.
  - destruct (almost_zero (A := ar_double) eps_double x 2) eqn:Zx; [|reflexivity]. destruct (almost_zero (A := ar_double) eps_double y 2) eqn:Zy; [|reflexivity]. exfalso.
    unfold almost_zero in Zx, Zy. cbn [a_lt a_abs a_mul a_of_Z ar_double] in Zx, Zy.
    destruct (mult_near eps_double (double_of_Z 2) 1) as [Fz Ez]; try assumption; try lra.
    { rewrite Ev, E2. rewrite Rabs_pos_eq; lra. }
    destruct (abs_val x Fx) as [Fax Eax]. destruct (abs_val y Fy) as [Fay Eay].
    rewrite flt_spec in Zx, Zy by (now apply finite_not_nan). rewrite !fval_finite in Zx, Zy by assumption.
    rewrite Ev, E2 in Ez. abs Ez. rewrite Eax in Zx. rewrite Eay in Zy.
    assert (Ax : Rabs (B2R x) <= 6 * u).
    { match type of Zx with Rlt_bool ?p ?q = true => destruct (Rlt_bool_spec p q); [lra|discriminate] end. }
    assert (Ay : Rabs (B2R y) <= 6 * u).
    { match type of Zy with Rlt_bool ?p ?q = true => destruct (Rlt_bool_spec p q); [lra|discriminate] end. }
    abs Ax. abs Ay. assert (Rabs (B2R y - B2R x) <= 12 * u) by (apply Rabs_le; lra). lra.
Qed.

Lemma same_almost_equal (x y : double) : is_finite x = true -> is_finite y = true -> B2R x = B2R y ->
  almost_equal (A := ar_double) eps_double tiny_double x y 2 = true.
Proof.
  intros Fx Fy E. unfold almost_equal. cbn [a_lt a_abs a_sub a_add a_mul a_of_Z ar_double].
  apply orb_true_intro. right.
  pose proof (Bminus_correct 53 1024 _ _ mode_NE x y Fx Fy) as C. rewrite E, Rminus_diag_eq, round_0 in C by (reflexivity || typeclasses eauto).
  rewrite Rabs_R0, Rlt_bool_true in C by apply bpow_gt_0. destruct C as (V & F & _).
  destruct (abs_val _ F) as [F' V']. 
  assert (Ft : is_finite tiny_double = true /\ 0 < B2R tiny_double).
  { destruct (parts tiny_double) as [[m e]|] eqn:P; vm_compute in P; [|discriminate P].
    destruct (parts_value tiny_double _ _ P) as [F1 W]. injection P as <- <-. split; [exact F1|]. rewrite W.
    apply Rmult_lt_0_compat; [lra|apply bpow_gt_0]. }
  destruct Ft as [Ft Et]. rewrite flt_spec by (now apply finite_not_nan). rewrite !fval_finite by assumption.
  rewrite V', V, Rabs_R0. now apply Rlt_bool_true.
Qed.

Section Longitude.
Context (lo hi : double).
Context (Flo : is_finite lo = true) (Fhi : is_finite hi = true) (Blo : Rabs (B2R lo) <= 360) (Bhi : Rabs (B2R hi) <= 360).
Context (Apart : B2R lo = B2R hi \/ 1e-9 <= Rabs (B2R hi - B2R lo)).
Let a := Bmult mode_NE lo d_degree.
Let b := Bmult mode_NE hi d_degree.
Let D := B2R d_degree.
Let west := fst (longitude_ends (B2R lo) (B2R hi)).
Let east := snd (longitude_ends (B2R lo) (B2R hi)).

(** The ends that the constructor computes. *)
Definition ends_near (a' b' : double) : Prop :=
  is_finite a' = true /\ is_finite b' = true /\
  Rabs (B2R a' - west * D) <= 40 * u /\ Rabs (B2R b' - east * D) <= 40 * u /\
  Rabs (B2R a') <= 16 /\ Rabs (B2R b') <= 16 /\ Rabs (B2R b' - B2R a') <= 16.

Lemma ends_computed (L : libm ar_double) graphic (lat hat : double) q : l_degree L = d_degree -> l_2pi L = d_2pi -> l_eps L = eps_double ->
  l_tiny L = tiny_double -> simple_cyl_new (A := ar_double) L graphic lat hat lo hi false = Ok q ->
  ends_near (sc_lo_lon q) (sc_hi_lon q) /\ sc_graphic q = false /\
  sc_lo_lat q = Bmult mode_NE lat d_degree /\ sc_hi_lat q = Bmult mode_NE hat d_degree.
Proof.
  intros HD H2 He Ht H. unfold simple_cyl_new in H. rewrite HD, H2, He, Ht in H.
  unfold boundary_latitude in H. rewrite HD in H. unfold validate_latitude in H.
  destruct (_ || _) in H; [discriminate|]. cbn [bind] in H.
  destruct (_ || _) in H; [discriminate|]. cbn [bind] in H.
  unfold validate_longitude in H.
  destruct (_ || _) in H; [discriminate|]. cbn [bind] in H.
  destruct (_ || _) in H; [discriminate|]. cbn [bind] in H.
  cbn [a_mul a_lt a_sub a_add ar_double] in H. fold a b in H.
  destruct (radians_near lo 360 Flo Blo ltac:(lia)) as (Fa & Ea & Ba). destruct (radians_near hi 360 Fhi Bhi ltac:(lia)) as (Fb & Eb & Bb).
  fold a D in Fa, Ea, Ba. fold b D in Fb, Eb, Bb.
  pose proof u_bounds as U. pose proof eta_u as T. pose proof eta_small as [T0 _]. pose proof u_value as UV.
  destruct degree_val as [_ DV]. fold D in DV. destruct twopi_val as [Ft Et]. fold D in Et.
  rewrite flt_spec in H by (now apply finite_not_nan). rewrite !fval_finite in H by assumption.
  assert (Sep : forall x y, 1e-9 <= y - x -> 1e-11 <= y * D - x * D).
  { intros x y Hxy. rewrite <- Rmult_minus_distr_r. apply Rle_trans with (1e-9 * 0.0174532925199); [lra|apply Rmult_le_compat; lra]. }
  assert (PQ : west = fst (longitude_ends (B2R lo) (B2R hi)) /\ east = snd (longitude_ends (B2R lo) (B2R hi))) by auto.
  unfold longitude_ends in PQ. abs Ea. abs Eb. abs Ba. abs Bb. abs Et.
  destruct (Rcompare_spec (B2R hi) (B2R lo)) as [C|C|C]; cbn [fst snd] in PQ; destruct PQ as [PW PE].
  - assert (S' : 1e-9 <= B2R lo - B2R hi). { destruct Apart as [A|A]; [lra|]. rewrite Rabs_left in A by lra. lra. }
    apply Sep in S'. rewrite Rlt_bool_true in H by lra. injection H as <-. cbn [sc_lo_lon sc_hi_lon sc_graphic sc_lo_lat sc_hi_lat].
    split; [|auto]. unfold ends_near. rewrite PW, PE.
    destruct (minus_near a d_2pi 16) as [F E]; try assumption; try lra. { apply Rabs_le. lra. }
    abs E. repeat split; try assumption; apply Rabs_le; try lra.
  - assert (E : B2R a = B2R b).
    { unfold a, b. destruct (mult_round lo d_degree Flo (proj1 degree_val)) as [_ ->].
      { apply rnd_small with 10; [|lra]. fold D. apply Rabs_le. lra. }
      destruct (mult_round hi d_degree Fhi (proj1 degree_val)) as [_ ->].
      { apply rnd_small with 10; [|lra]. fold D. apply Rabs_le. lra. }
      now rewrite C. }
    rewrite Rlt_bool_false in H by lra.
    pose proof (same_almost_equal a b Fa Fb E) as NE. cbn [acar ar_double] in H, NE. rewrite NE in H. cbn [orb] in H.
    injection H as <-. cbn [sc_lo_lon sc_hi_lon sc_graphic sc_lo_lat sc_hi_lat].
    split; [|auto]. unfold ends_near. rewrite PW, PE.
    destruct (plus_near b d_2pi 16) as [F E']; try assumption; try lra. { apply Rabs_le. lra. }
    abs E'. repeat split; try assumption; apply Rabs_le; try lra.
  - assert (S' : 1e-9 <= B2R hi - B2R lo). { destruct Apart as [A|A]; [lra|]. rewrite Rabs_pos_eq in A by lra. lra. }
    apply Sep in S'. rewrite Rlt_bool_false in H by lra.
    pose proof (not_almost_equal a b Fa Fb ltac:(apply Rabs_le; lra) ltac:(apply Rabs_le; lra) ltac:(rewrite Rabs_pos_eq; lra)) as NE.
    cbn [acar ar_double] in H, NE. rewrite NE in H.
    injection H as <-. cbn [sc_lo_lon sc_hi_lon sc_graphic sc_lo_lat sc_hi_lat].
    split; [|auto]. unfold ends_near. rewrite PW, PE. repeat split; try assumption; apply Rabs_le; lra.
Qed.
End Longitude.

(** The longitude plane at an angle near [r] degrees. *)
Lemma longitude_value fmod (lon : double) r : fmod_spec fmod -> is_finite lon = true ->
  Rabs (B2R lon - r * B2R d_degree) <= 500 * u -> Rabs r <= 1000 ->
  exists d, longitude_double fmod lon = Ok (Some d) /\ is_finite d = true /\ 0 <= B2R d <= 360 /\
    exists z, Rabs (B2R d - (r + 360 * IZR z)) <= 1e-11.
Proof.
  intros S F E R. destruct (longitude_double_range fmod S lon) as [T _]. destruct (T F) as (d & Ed & Fd & Bd).
  exists d. split; [exact Ed|]. split; [exact Fd|]. split; [exact Bd|].
  pose proof u_bounds as U. pose proof eta_u as T1. pose proof eta_small as [T0 _]. pose proof u_value as UV.
  destruct circle_val as [Fc Ec]. destruct degree_val as [_ DV]. set (D := B2R d_degree) in *. set (C := B2R d_circle) in *.
  abs Ec. destruct S as [S _]. destruct (S lon d_circle F Fc ltac:(fold C; lra)) as (Ff & Bf & n & En). fold C in Bf, En.
  set (f := fmod lon d_circle) in *. apply Rabs_def2 in Bf.
  assert (X : Rabs (r * D) <= 1000 * D) by (rewrite Rabs_mult, (Rabs_pos_eq D) by lra; apply Rmult_le_compat_r; lra).
  abs E. abs X.
  assert (N : -10 <= IZR n <= 10).
  { split; apply Rnot_lt_le; intros H.
    - assert (IZR n * C <= -10 * C) by (apply Rmult_le_compat_r; lra). lra.
    - assert (10 * C <= IZR n * C) by (apply Rmult_le_compat_r; lra). lra. }
  assert (G : Rabs (B2R f - (r - 360 * IZR n) * D) <= 600 * u).
  { replace (B2R f - (r - 360 * IZR n) * D) with ((B2R lon - r * D) - IZR n * (C - 360 * D)) by (rewrite En; ring).
    assert (Rabs (IZR n * (C - 360 * D)) <= 10 * (8 * u)).
    { rewrite Rabs_mult. apply Rmult_le_compat; try apply Rabs_pos; apply Rabs_le; lra. }
    abs H. apply Rabs_le. lra. }
  assert (W : Rabs (r - 360 * IZR n) <= IZR 400).
  { abs G. apply Rabs_le. split; apply Rnot_lt_le; intros H.
    - assert ((r - 360 * IZR n) * D <= -(400) * D) by (apply Rmult_le_compat_r; lra). lra.
    - assert (400 * D <= (r - 360 * IZR n) * D) by (apply Rmult_le_compat_r; lra). lra. }
  destruct (degrees_near f (r - 360 * IZR n) (600 * u) 400 Ff G ltac:(lia) W ltac:(lra)) as [Fq Q].
  destruct (double_of_Z_exact 360 ltac:(lia)) as [F3 E3].
  unfold longitude_double, longitude_data in Ed. cbn [a_div a_lt a_add a_sub a_of_Z ar_double] in Ed. fold f in Ed.
  set (q := Bdiv mode_NE f d_degree) in *.
  assert (Qb : Rabs (B2R q) <= 401). { abs Q. abs W. apply Rabs_le. lra. }
  assert (Cases : d = Bplus mode_NE q (double_of_Z 360) \/ d = Bminus mode_NE q (double_of_Z 360) \/ d = q).
  { revert Ed. destruct (flt q (double_of_Z 0)); [|destruct (flt (double_of_Z 360) q)];
      (destruct (_ && _); [intros Ed; injection Ed as <-; auto|discriminate]). }
  abs Q. destruct Cases as [->|[->| ->]].
  - exists (1 - n)%Z. destruct (plus_near q (double_of_Z 360) 800) as [_ P]; try assumption; try lra.
    { rewrite E3. abs Qb. apply Rabs_le. lra. }
    rewrite E3 in P. abs P. rewrite minus_IZR. apply Rabs_le. lra.
  - exists (-1 - n)%Z. destruct (minus_near q (double_of_Z 360) 800) as [_ P]; try assumption; try lra.
    { rewrite E3. abs Qb. apply Rabs_le. lra. }
    rewrite E3 in P. abs P. rewrite minus_IZR. apply Rabs_le. lra.
  - exists (- n)%Z. rewrite opp_IZR. apply Rabs_le. lra.
Qed.

(** The longitude of a cell. *)
Lemma cell_longitude (prograde : bool) (lo hi : double) (q : simple_cyl ar_double) i samples :
  Rabs (B2R lo) <= 360 -> Rabs (B2R hi) <= 360 -> ends_near lo hi (sc_lo_lon q) (sc_hi_lon q) ->
  (0 <= i < samples)%Z -> (samples < 2 ^ 52)%Z ->
  let cf := Bdiv mode_NE (Bminus mode_NE (sc_hi_lon q) (sc_lo_lon q)) (double_of_Z samples) in
  let lon := sc_longitude (A := ar_double) prograde q i cf in
  is_finite (lon : double) = true /\
  Rabs (B2R (lon : double) - middle_longitude prograde (B2R lo) (B2R hi) i samples * B2R d_degree) <= 500 * u /\
  Rabs (middle_longitude prograde (B2R lo) (B2R hi) i samples) <= 1000.
Proof.
  intros Blo Bhi (Fa & Fb & Ea & Eb & Ba & Bb & Bd) I N. cbv zeta. set (D := B2R d_degree) in *.
  destruct (line_near (sc_lo_lon q) (sc_hi_lon q) _ _ (40 * u) 16 i samples Fa Fb Ea Eb ltac:(lra) Ba Bb Bd I N) as [[Fu Eu] [Fd Ed]].
  pose proof u_bounds as U. unfold middle_longitude.
  assert (Ends : Rabs (fst (longitude_ends (B2R lo) (B2R hi))) <= 720 /\ Rabs (snd (longitude_ends (B2R lo) (B2R hi))) <= 720 /\
    Rabs (snd (longitude_ends (B2R lo) (B2R hi)) - fst (longitude_ends (B2R lo) (B2R hi))) <= 720).
  { abs Blo. abs Bhi. unfold longitude_ends. destruct (Rcompare_spec (B2R hi) (B2R lo)); cbn [fst snd]; repeat split; apply Rabs_le; lra. }
  destruct (longitude_ends (B2R lo) (B2R hi)) as [west east] eqn:WE. cbn [fst snd] in *.
  destruct Ends as (Bw & Be & Bs). pose proof (fraction_bounds i samples I) as FB. pose proof (fraction_01 i samples I) as F01.
  set (f := fraction i samples) in *.
  unfold sc_longitude. cbn [a_add a_sub a_mul a_of_Z ar_double].
  assert (Fr : Rabs (west + f * (east - west)) <= 1000 /\ Rabs (east - f * (east - west)) <= 1000).
  { abs Bw. abs Be. replace (west + f * (east - west)) with ((1 - f) * west + f * east) by ring.
    replace (east - f * (east - west)) with (f * west + (1 - f) * east) by ring.
    assert (- (720) * f <= f * west <= 720 * f) by nra. assert (- (720) * f <= f * east <= 720 * f) by nra.
    assert (- (720) * (1 - f) <= (1 - f) * west <= 720 * (1 - f)) by nra. assert (- (720) * (1 - f) <= (1 - f) * east <= 720 * (1 - f)) by nra.
    split; apply Rabs_le; lra. }
  destruct Fr as [Fr1 Fr2].
  destruct prograde.
  - split; [exact Fd|]. split; [|exact Fr2].
    replace ((east - f * (east - west)) * D) with (east * D - f * (east * D - west * D)) by ring.
    eapply Rle_trans; [exact Ed|]. lra.
  - split; [exact Fu|]. split; [|exact Fr1].
    replace ((west + f * (east - west)) * D) with (west * D + f * (east * D - west * D)) by ring.
    eapply Rle_trans; [exact Eu|]. lra.
Qed.
