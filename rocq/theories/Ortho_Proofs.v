(** Proofs about orthographic maps (C52, C85, C86). *)
From Coq Require Import List ZArith Reals Lra Lia Bool Psatz Sorting.Sorted.
From Flocq Require Import Core BinarySingleNaN.
From Verif Require Import Base BaseFacts Num LinAlg_Model Maths_Model Maths_Spec Maths_Proofs
  Spheroid_Model Spheroid_Spec Spheroid_Proofs Proj_Model Proj_Spec Proj_Proofs Ortho_Model Ortho_Spec.
Import ListNotations.
Open Scope R_scope.

(** * Offsets *)
Lemma ortho_offsets (A : arith) (L : libm A) roots pro eq pol (p : ortho A) samples lines :
  map_size samples lines ->
  exists calls o, ortho_plot_map L roots pro eq pol p samples lines = (calls, Ok o) /\
    in_order calls /\ inside (samples * lines) calls /\
    forall k i, (0 <= k < lines)%Z -> (0 <= i < samples)%Z -> forall kpp sc lc,
      map_parameters eq pol p samples lines = (kpp, sc, lc) ->
      forall q, plotted samples calls k i q <->
        ortho_point L roots pro eq pol p (a_mul A (a_sub A (a_add A (a_of_Z A i) half) sc) kpp)
                                     (a_mul A (a_sub A (a_add A (a_of_Z A k) half) lc) kpp) = Some q.
Proof.
  intros Sz. destruct (ortho_plot_map L roots pro eq pol p samples lines) as [calls e] eqn:E.
  unfold ortho_plot_map in E. destruct (map_parameters eq pol p samples lines) as [[kpp sc] lc].
  match type of E with plot_loops _ _ ?r = _ => set (row := r) in E end.
  destruct (rows_total (Z.to_nat lines) samples row) with (k := 0%Z) (off := 0%Z) as (c & o & E').
  { intros k. eexists. split; [reflexivity|]. intros i. eexists. reflexivity. }
  destruct (loops_spec samples lines row calls e Sz E) as (S & I & F & G).
  unfold plot_loops in E. rewrite E' in E. injection E as <- <-.
  exists c, o. split; [reflexivity|]. split; [exact S|]. split; [exact I|].
  intros k i Hk Hi kpp' sc' lc' [= <- <- <-] q. split.
  - intros H. destruct (F k i q Hi H) as (f & Rk & Fi). injection Rk as <-. now injection Fi as Fi.
  - intros H. destruct (G o eq_refl k i Hk Hi) as (f & c' & Rk & Fi & Hc). injection Rk as <-.
    injection Fi as <-. apply Hc. exact H.
Qed.

(** * The observer's frame *)
Section Frame.
Variables (pro : bool) (phi lam : R).
Local Notation E := (east pro lam).
Local Notation s := (sin phi).
Local Notation c := (cos phi).

(** The point [X] to the right, [Y] away from and [Z] above the center, before
    tilting. *)
Definition fixed (X Y Z : R) : vector := [- X * sin E - Y * cos E; X * cos E - Y * sin E; Z].
(** The point [x] to the right, [y] away, [z] up on the sky. *)
Definition seen (x y z : R) : vector := fixed x (y * c + z * s) (z * c - y * s).

Lemma sc1 a : sin a * sin a + cos a * cos a = 1.
Proof. pose proof (sin2_cos2 a). unfold Rsqr in H. lra. Qed.

Lemma fixed_norm X Y Z : vget (fixed X Y Z) 0 ^ 2 + vget (fixed X Y Z) 1 ^ 2 = X * X + Y * Y.
Proof.
  unfold fixed, vget. cbn [nth]. transitivity ((X * X + Y * Y) * (sin E * sin E + cos E * cos E)); [ring|].
  rewrite sc1. ring.
Qed.

Lemma seen_right x y z : inner 3 (seen x y z) (rightward pro lam) = x.
Proof.
  unfold seen, fixed, inner, rightward, vget. cbn [sum_to nth].
  transitivity (x * (sin E * sin E + cos E * cos E)); [ring|]. rewrite sc1. ring.
Qed.
Lemma seen_north x y z : inner 3 (seen x y z) (northward pro phi lam) = z.
Proof.
  unfold seen, fixed, inner, northward, vget. cbn [sum_to nth].
  transitivity ((y * c + z * s) * s * (sin E * sin E + cos E * cos E) + (z * c - y * s) * c); [ring|]. rewrite sc1.
  transitivity (z * (s * s + c * c)); [ring|]. rewrite sc1. ring.
Qed.

(** Every point of space is seen somewhere. *)
Lemma seen_all P : is_vec 3 P -> exists x y z, P = seen x y z.
Proof.
  intros V. destruct P as [|a [|b [|d [|]]]]; try discriminate V.
  set (X := - a * sin E + b * cos E). set (Y := - a * cos E - b * sin E).
  exists X, (Y * c - d * s), (Y * s + d * c). unfold seen, fixed.
  replace ((Y * c - d * s) * c + (Y * s + d * c) * s) with (Y * (s * s + c * c)) by ring.
  replace ((Y * s + d * c) * c - (Y * c - d * s) * s) with (d * (s * s + c * c)) by ring.
  rewrite sc1. unfold X, Y. f_equal; [|f_equal; [|f_equal]].
  - transitivity (a * (sin E * sin E + cos E * cos E)); [rewrite sc1|]; ring.
  - transitivity (b * (sin E * sin E + cos E * cos E)); [rewrite sc1|]; ring.
  - ring.
Qed.

(** Image coordinates and back. *)
Lemma seen_projects pa x y z u w :
  projects_to pro phi lam pa (seen x y z) u w <-> x = u * cos pa + w * sin pa /\ z = w * cos pa - u * sin pa.
Proof.
  unfold projects_to. rewrite seen_right, seen_north. pose proof (sc1 pa).
  split; intros [-> ->]; split.
  - transitivity (x * (sin pa * sin pa + cos pa * cos pa)); [rewrite H|]; ring.
  - transitivity (z * (sin pa * sin pa + cos pa * cos pa)); [rewrite H|]; ring.
  - transitivity (u * (sin pa * sin pa + cos pa * cos pa)); [rewrite H|]; ring.
  - transitivity (w * (sin pa * sin pa + cos pa * cos pa)); [rewrite H|]; ring.
Qed.

Variables eq pol : R.
Hypothesis Hpol : 0 < pol.
Hypothesis Hle : pol <= eq.

Definition qA := (eq - pol) * (eq + pol) * (s * s) + pol * pol.
Definition qB (w : R) := (eq - pol) * (eq + pol) * w * sin (2 * phi).
Definition qC (u w : R) :=
  eq * eq * w * w + pol * pol * u * u - eq * eq * (pol * pol) - (eq - pol) * (eq + pol) * w * w * (s * s).

Lemma qA_pos : 0 < qA.
Proof. unfold qA. assert (0 <= (eq - pol) * (eq + pol)) by nra. assert (0 <= s * s) by nra. nra. Qed.

(** The quadratic equation with the correct sign of the linear term. *)
Lemma seen_on x y z : on_spheroid eq pol (seen x y z) <-> qA * y * y - qB z * y + qC x z = 0.
Proof.
  unfold on_spheroid, seen. rewrite fixed_norm. unfold fixed at 1, vget. cbn [nth].
  assert (Hq : qA * y * y - qB z * y + qC x z =
     eq * eq * (pol * pol) * ((x * x + (y * c + z * s) * (y * c + z * s)) / eq ^ 2 + (z * c - y * s) ^ 2 / pol ^ 2 - 1)).
  { unfold qA, qB, qC. rewrite sin_2a.
    transitivity (pol * pol * (x * x + (y * c + z * s) * (y * c + z * s)) + eq * eq * (z * c - y * s) ^ 2 - eq * eq * (pol * pol)).
    - pose proof (sc1 phi) as T. assert (C2 : c * c = 1 - s * s) by lra.
      transitivity (pol * pol * (x * x + (y * y * (c * c) + 2 * y * z * c * s + z * z * (s * s)))
        + eq * eq * (z * z * (c * c) - 2 * y * z * c * s + y * y * (s * s)) - eq * eq * (pol * pol)); [rewrite C2|]; ring.
    - field. split; lra. }
  rewrite Hq. assert (0 < eq * eq * (pol * pol)) by (apply Rmult_lt_0_compat; nra).
  split; intros K.
  - rewrite K. ring.
  - destruct (Rmult_integral _ _ K); lra.
Qed.

Lemma seen_facing x y z : facing eq pol pro phi lam (seen x y z) <-> 2 * qA * y - qB z <= 0.
Proof.
  unfold facing. assert (Hq : 2 * qA * y - qB z = - 2 * (eq * eq * (pol * pol)) * inner 3 (gradient eq pol (seen x y z)) (toward pro phi lam)).
  { unfold inner, gradient, toward, seen, fixed, spherical, vget, qA, qB. cbn [sum_to nth]. rewrite sin_2a.
    field_simplify; [|split; lra].
    pose proof (sc1 E) as T. pose proof (sc1 phi) as T'. assert (C2 : c * c = 1 - s * s) by lra.
    assert (D2 : cos E * cos E = 1 - sin E * sin E) by lra.
    replace (cos E ^ 2) with (1 - sin E * sin E) by (rewrite <- D2; ring).
    replace (c ^ 2) with (1 - s * s) by (rewrite <- C2; ring). ring. }
  rewrite Hq. assert (0 < eq * eq * (pol * pol)) by (apply Rmult_lt_0_compat; nra).
  split; intros K; nra.
Qed.

(** Coordinates computed by the code. *)
Lemma fixed_position X Y Z : X <> 0 \/ Y <> 0 \/ Z <> 0 ->
  let lat := atan2 Z (hypot X Y) in let t := atan2 (- X) Y in
  let lon := if pro then lam - t + PI else lam + t - PI in
  has_position pro (fixed X Y Z) lat lon /\ - (PI / 2) <= lat <= PI / 2.
Proof.
  intros N lat t lon. set (h := hypot X Y) in *.
  assert (Hh : 0 <= h) by apply sqrt_pos. assert (Eh : h * h = X * X + Y * Y) by (apply sqrt_sqrt; nra).
  assert (N1 : h <> 0 \/ Z <> 0).
  { destruct (Req_dec Z 0); [left|auto]. intros H0. rewrite H0 in Eh. destruct N as [|[|]]; nra. }
  destruct (atan2_polar h Z N1) as (C & S & Bd). fold lat in C, S, Bd.
  set (r := hypot h Z) in *.
  assert (Hr : 0 < r). { unfold r, hypot. apply sqrt_lt_R0. destruct N1; nra. }
  split.
  - exists r. split; [exact Hr|].
    assert (El : east pro lon = E + t - PI) by (unfold east, lon; destruct pro; ring).
    assert (Ct : h * cos t = Y /\ h * sin t = - X).
    { destruct (Req_dec h 0) as [H0|H0].
      - rewrite H0 in *. assert (X = 0) by nra. assert (Y = 0) by nra. subst X Y. lra.
      - assert (N2 : Y <> 0 \/ - X <> 0) by (destruct (Req_dec Y 0); [right; intros ?; apply H0; nra|auto]).
        destruct (atan2_polar Y (- X) N2) as (C' & S' & _).
        replace (hypot Y (- X)) with h in C', S' by (unfold h, hypot; f_equal; ring). auto. }
    destruct Ct as [Ct St]. rewrite El. unfold spherical, fixed.
    rewrite cos_minus, sin_minus, cos_PI, sin_PI.
    rewrite cos_plus, sin_plus. f_equal; [|f_equal; [|f_equal]].
    + transitivity (- (h * cos t * cos E - h * sin t * sin E)); [rewrite Ct, St; ring|]. rewrite <- C. ring.
    + transitivity (- (h * cos t * sin E + h * sin t * cos E)); [rewrite Ct, St; ring|]. rewrite <- C. ring.
    + lra.
  - assert (0 <= cos lat).
    { destruct (Rle_lt_dec 0 (cos lat)); [assumption|]. nra. }
    pose proof PI_RGT_0. split.
    + destruct (Rle_lt_dec (- (PI / 2)) lat) as [|K]; [assumption|].
      assert (cos lat < 0); [|lra]. rewrite <- cos_neg. apply cos_lt_0; lra.
    + destruct (Rle_lt_dec lat (PI / 2)) as [|K]; [assumption|].
      assert (cos lat < 0); [|lra]. apply cos_lt_0; lra.
Qed.
End Frame.

(** * The smaller root *)
Lemma smaller_root a b c : 0 < a -> 0 <= b * b - 4 * a * c ->
  exists r1 r2 y, quadratic_roots a b c = Some (r1, r2) /\
    (if num_lt r2 r1 then r2 else r1) = Num y /\
    a * y * y + b * y + c = 0 /\ 2 * a * y + b <= 0.
Proof.
  intros Ha Hd.
  assert (W : forall r1 r2, quadratic_roots a b c = Some (Num r1, Num r2) ->
     (forall x, a * x * x + b * x + c = 0 <-> x = r1 \/ x = r2) ->
     exists r1 r2 y, quadratic_roots a b c = Some (r1, r2) /\
    (if num_lt r2 r1 then r2 else r1) = Num y /\
    a * y * y + b * y + c = 0 /\ 2 * a * y + b <= 0).
  { intros r1 r2 Q R. exists (Num r1), (Num r2).
    assert (V : forall m, a * m * m + b * m + c = 0 -> m <= r1 -> m <= r2 -> 2 * a * m + b <= 0).
    { intros m Em H1 H2. set (o := - b / a - m).
      assert (Eo : a * o * o + b * o + c = 0).
      { transitivity (a * m * m + b * m + c); [unfold o; field; lra|exact Em]. }
      apply R in Eo. assert (m <= o) by (destruct Eo as [-> | ->]; assumption).
      unfold o in *. assert (2 * m <= - b / a) by lra. assert (2 * m * a <= - b / a * a) by nra.
      replace (- b / a * a) with (- b) in * by (field; lra). lra. }
    cbn [num_lt]. destruct (Rlt_bool_spec r2 r1).
    - exists r2. repeat split; try assumption; [apply R; auto|apply V; [apply R; auto|lra|lra]].
    - exists r1. repeat split; try assumption; [apply R; auto|apply V; [apply R; auto|lra|lra]]. }
  destruct (Req_dec b 0) as [Hb|Hb]; [destruct (Req_dec c 0) as [Hc|Hc]|].
  - subst. exists (Num 0), NaN, 0. rewrite quadratic_double_zero by lra. repeat split; lra.
  - destruct (quadratic_some a b c) as (r1 & r2 & Q & R); [lra|auto|exact Hd|]. eapply W; eauto.
  - destruct (quadratic_some a b c) as (r1 & r2 & Q & R); [lra|auto|exact Hd|]. eapply W; eauto.
Qed.

(** * The plotted point *)
Section Point.
Variables (low : R) (pro : bool) (eq pol phi lam pa : R) (kpp sc lc latc lonc : num) (polar : bool).
Hypothesis Hpol : 0 < pol.
Hypothesis Hle : pol <= eq.
Hypothesis Hpolar : polar = true -> cos phi = 0 /\ sin pa = 0.
Local Notation p := (@Ortho ar_num (Num phi) (Num lam) (Num pa) kpp sc lc latc lonc polar).
Local Notation point := (ortho_point (A := ar_num) (libm_num PI low) num_roots pro (Num eq : ar_num) (Num pol : ar_num) p).
Variables x z : R.
Local Notation u := (x * cos pa + z * sin pa).
Local Notation w := (z * cos pa - x * sin pa).

Lemma point_spec :
  (qB phi eq pol w * qB phi eq pol w - 4 * qA phi eq pol * qC phi eq pol u w < 0 /\ point (Num x : ar_num) (Num z : ar_num) = None) \/
  (0 <= qB phi eq pol w * qB phi eq pol w - 4 * qA phi eq pol * qC phi eq pol u w /\
   exists y lat lon, qA phi eq pol * y * y + qB phi eq pol w * y + qC phi eq pol u w = 0 /\
     2 * qA phi eq pol * y + qB phi eq pol w <= 0 /\
     point (Num x : ar_num) (Num z : ar_num) = Some (Num lat : ar_num, Num lon : ar_num) /\
     has_position pro (seen pro phi lam u y w) lat lon /\ - (PI / 2) <= lat <= PI / 2).
Proof.
  set (A := qA phi eq pol). set (B := qB phi eq pol w). set (C := qC phi eq pol u w).
  assert (HA : 0 < A) by (apply qA_pos; assumption).
  (* the coefficients *)
  assert (K : forall x' z', (x', z') = (if polar then (x, z) else (u, w)) ->
     (eq - pol) * (eq + pol) * (sin phi * sin phi) + pol * pol = A /\
     (eq - pol) * (eq + pol) * z' * sin (2 * phi) = B /\
     eq * eq * z' * z' + pol * pol * x' * x' - eq * eq * (pol * pol) - (eq - pol) * (eq + pol) * z' * z' * (sin phi * sin phi) = C).
  { intros x' z' E. split; [reflexivity|]. unfold B, C, qB, qC. destruct polar.
    - destruct (Hpolar eq_refl) as [Cp Sp]. injection E as -> ->. rewrite sin_2a, Cp, Sp.
      assert (C2 : cos pa * cos pa = 1) by (pose proof (sc1 pa); rewrite Sp in *; lra).
      split; [ring|].
      transitivity ((eq * eq * z * z - (eq - pol) * (eq + pol) * z * z * (sin phi * sin phi)) * (cos pa * cos pa)
         + pol * pol * x * x * (cos pa * cos pa) - eq * eq * (pol * pol)); [rewrite C2|]; ring.
    - injection E as -> ->. split; reflexivity. }
  assert (U : forall x' z', (x', z') = (if polar then (x, z) else (u, w)) ->
    point (Num x : ar_num) (Num z : ar_num) =
    match quadratic_roots A B C with
    | None => None
    | Some (r1, r2) =>
      match (if num_lt r2 r1 then r2 else r1) with
      | Num y =>
        let rx := x' in let ry := y * cos phi + z' * sin phi in let rz := z' * cos phi - y * sin phi in
        let X := if polar then rx * cos pa - ry * sin pa else rx in
        let Y := if polar then ry * cos pa + rx * sin pa else ry in
        Some (Num (atan2 rz (hypot X Y)) : ar_num,
              Num (if pro then lam - atan2 (- X) Y + PI else lam + atan2 (- X) Y - PI) : ar_num)
      | NaN => Some (NaN : ar_num, NaN : ar_num)
      end
    end).
  { intros x' z' E. destruct (K x' z' E) as (KA & KB & KC). unfold ortho_point.
    cbn [o_lat o_lon o_pa o_polar]. unfold neg.
    nums. rewrite !Rminus_0_l, !cos_neg, !sin_neg. rewrite (Req_bool_true 2 2 eq_refl).
    assert (Q : forall X Y : ar_num, (if polar then (Num x : ar_num, Num z : ar_num)
       else (Num (x * cos pa - z * - sin pa) : ar_num, Num (x * - sin pa + z * cos pa) : ar_num)) = (Num x' : ar_num, Num z' : ar_num)).
    { intros _ _. destruct polar; injection E as -> ->; [reflexivity|]. do 2 f_equal; ring. }
    match goal with |- context [if polar then (Num x, Num z) else ?q] =>
      replace (if polar then (Num x, Num z) else q) with (Num x' : ar_num, Num z' : ar_num)
      by (symmetry; apply (Q NaN NaN)) end.
    nums. rewrite KA, KB, KC. cbn [num_roots].
    destruct (quadratic_roots A B C) as [[r1 r2]|]; [|reflexivity].
    change (a_lt ar_num r2 r1) with (num_lt r2 r1).
    destruct (if num_lt r2 r1 then r2 else r1) as [|y].
    - nums. destruct polar; nums; destruct pro; reflexivity.
    - nums. destruct polar; nums.
      + replace (x' * cos pa + (y * cos phi + z' * sin phi) * - sin pa) with (x' * cos pa - (y * cos phi + z' * sin phi) * sin pa) by ring.
        replace ((y * cos phi + z' * sin phi) * cos pa - x' * - sin pa) with ((y * cos phi + z' * sin phi) * cos pa + x' * sin pa) by ring.
        rewrite ?Rminus_0_l. destruct pro; reflexivity.
      + rewrite ?Rminus_0_l. destruct pro; reflexivity. }
  destruct (Rlt_le_dec (B * B - 4 * A * C) 0) as [D|D].
  - left. split; [exact D|]. destruct (if polar then (x, z) else (u, w)) as [x' z'] eqn:E.
    rewrite (U x' z' eq_refl). apply quadratic_none in D. rewrite D. reflexivity.
  - right. split; [exact D|].
    destruct (smaller_root A B C HA D) as (r1 & r2 & y & Q & My & Ry & Fy).
    destruct (if polar then (x, z) else (u, w)) as [x' z'] eqn:E.
    specialize (U x' z' eq_refl). rewrite Q, My in U. cbv zeta in U.
    match type of U with _ = Some (Num ?la, Num ?lo) => exists y, la, lo end.
    split; [exact Ry|]. split; [exact Fy|]. split; [exact U|]. clear U.
    match goal with |- context [hypot ?X0 ?Y0] => set (X := X0) in *; set (Y := Y0) in * end.
    assert (EX : X = u /\ Y = y * cos phi + w * sin phi /\ z' * cos phi - y * sin phi = w * cos phi - y * sin phi).
    { unfold X, Y. destruct polar.
      - destruct (Hpolar eq_refl) as [Cp Sp]. injection E as <- <-. rewrite Cp, Sp. repeat split; ring.
      - injection E as <- <-. repeat split; ring. }
    destruct EX as (-> & -> & ->). unfold seen.
    apply fixed_position.
    (* not the center *)
    destruct (Req_dec u 0) as [Hu|]; [|auto]. right.
    destruct (Req_dec (y * cos phi + w * sin phi) 0) as [Hy|]; [|auto]. right. intros Hz.
    assert (T := sc1 phi).
    assert (y = 0). { transitivity ((y * cos phi + w * sin phi) * cos phi - (w * cos phi - y * sin phi) * sin phi); [|rewrite Hy, Hz; ring].
      transitivity (y * (sin phi * sin phi + cos phi * cos phi)); [rewrite T|]; ring. }
    assert (w = 0). { transitivity ((y * cos phi + w * sin phi) * sin phi + (w * cos phi - y * sin phi) * cos phi); [|rewrite Hy, Hz; ring].
      transitivity (w * (sin phi * sin phi + cos phi * cos phi)); [rewrite T|]; ring. }
    unfold C, qC in Ry. rewrite H, H0, Hu in Ry.
    assert (0 < eq * eq * (pol * pol)) by (apply Rmult_lt_0_compat; nra). nra.
Qed.
End Point.

(** * The constructor *)
Section New.
Variables (low : R) (pro : bool) (eq pol : R).
Hypothesis Hpol : 0 < pol.
Hypothesis Hle : pol <= eq.
Local Notation L := (libm_num PI low).
Local Notation radius := (num1 (fun r => Num (centric_radius eq pol r)) : ar_num -> ar_num).
Local Notation onew := (ortho_new (A := ar_num) L num_acos (NaN : ar_num) pro (Num eq : ar_num) (Num pol : ar_num) radius).

Lemma near_pole a : almost_equal (A := ar_num) eps_num tiny_num (Num (Rabs a)) (Num 90) 4 = true -> Rabs a <= 90 ->
  90 - Rabs a < 1 / 1000000000000.
Proof.
  intros H Hb. apply almost_equal_spec_R in H. pose proof (Rabs_pos a).
  assert (E1 : bpow radix2 (-52) < 1 / 1000000000000000).
  { cbn [bpow]. change (IZR (Z.pow_pos radix2 52)) with 4503599627370496. lra. }
  assert (E2 : bpow radix2 (-1022) <= bpow radix2 (-52)) by (apply bpow_le; lia).
  pose proof (bpow_gt_0 radix2 (-52)).
  rewrite (Rabs_left1 (Rabs a - 90)) in H by lra. rewrite (Rabs_pos_eq (Rabs a + 90)) in H by lra.
  destruct H as [H|H]; [|lra].
  assert (bpow radix2 (-52) * (Rabs a + 90) <= bpow radix2 (-52) * 180) by (apply Rmult_le_compat_l; lra). lra.
Qed.

Lemma orientation_spec (a b g : num) phi lam pa polar :
  orientation (A := ar_num) L pro a b g = Ok (phi, lam, pa, polar) ->
  exists ra rb rg rphi rlam rpa, a = Num ra /\ b = Num rb /\ g = Num rg /\
    phi = Num rphi /\ lam = Num rlam /\ pa = Num rpa /\
    oriented ra rb rg rphi rlam rpa /\ - (PI / 2) <= rphi <= PI / 2 /\
    (0 <= rlam <= 2 * PI) /\
    (polar = true -> cos rphi = 0 /\ sin rpa = 0) /\ (polar = false -> - (PI / 2) < rphi < PI / 2).
Proof.
  unfold orientation. pose proof PI_RGT_0 as Ppi.
  destruct (validate_latitude (A := ar_num) _ a) as [la| |] eqn:Va; [|discriminate..].
  destruct (validate_longitude (A := ar_num) _ b) as [lo| |] eqn:Vb; [|discriminate..].
  destruct (validate_position_angle (A := ar_num) _ g) as [pg| |] eqn:Vg; [|discriminate..].
  apply validate_lat_inv in Va. destruct Va as (ra & -> & Ha & ->).
  apply validate_lon_inv in Vb. destruct Vb as (rb & -> & Hb & ->).
  change (validate_position_angle (A := ar_num) (l_degree L) g) with (validate_longitude (A := ar_num) (l_degree L) g) in Vg.
  apply validate_lon_inv in Vg. destruct Vg as (rg & -> & Hg & ->).
  cbn [bind]. nums.
  change (l_eps L) with eps_num. change (l_tiny L) with tiny_num.
  destruct (almost_equal (A := ar_num) eps_num tiny_num (Num (Rabs ra)) (Num 90) 4) eqn:Pole.
  - intros E. apply Ok_inj in E.
    assert (Q : exists rphi rlam rpa, phi = Num rphi /\ lam = Num rlam /\ pa = Num rpa /\ polar = true /\
       rphi = (if Rlt_dec 0 ra then PI / 2 else - (PI / 2)) /\ rlam = 0 /\ rpa = (if Rlt_dec 0 ra then PI else 0)).
    { assert (Ra : Rabs ra <= 90) by (apply Rabs_le; lra).
      pose proof (near_pole ra Pole Ra) as Nr.
      assert (ra <> 0) by (intros ->; rewrite Rabs_R0 in Nr; lra).
      destruct (Rlt_dec 0 ra).
      - rewrite (Rlt_bool_true 0 ra), (Rlt_bool_false ra 0) in E by lra.
        exists (PI / 2), 0, PI. destruct pro; cbn [andb orb negb] in E; injection E as <- <- <- <-; repeat split.
      - rewrite (Rlt_bool_false 0 ra), (Rlt_bool_true ra 0) in E by lra.
        exists (0 - PI / 2), 0, 0. destruct pro; cbn [andb orb negb] in E; injection E as <- <- <- <-; repeat split; lra. }
    destruct Q as (rphi & rlam & rpa & -> & -> & -> & -> & Q1 & -> & Q2).
    exists ra, rb, rg, rphi, 0, rpa. do 6 (split; [reflexivity|]).
    assert (Ra : Rabs ra <= 90) by (apply Rabs_le; lra).
    split; [right; split; [apply near_pole; assumption|]; auto|].
    split; [rewrite Q1; destruct (Rlt_dec 0 ra); lra|]. split; [lra|].
    split; [|discriminate]. intros _. subst.
    destruct (Rlt_dec 0 ra); rewrite ?cos_neg, cos_PI2, ?sin_PI, ?sin_0; auto.
  - intros E. apply Ok_inj in E. injection E as <- <- <- <-.
    exists ra, rb, rg, (ra * (PI / 180)), (if Rlt_bool (rb * (PI / 180)) 0 then rb * (PI / 180) + 2 * PI else rb * (PI / 180)), (rg * (PI / 180)).
    do 4 (split; [reflexivity|]). split; [destruct (Rlt_bool _ _); reflexivity|]. split; [reflexivity|].
    assert (Nr : Rabs ra < 90).
    { destruct (Rlt_le_dec (Rabs ra) 90); [assumption|]. exfalso.
      assert (Rabs ra <= 90) by (apply Rabs_le; lra). replace (Rabs ra) with 90 in Pole by lra.
      rewrite almost_equal_refl_R in Pole. discriminate. }
    apply Rabs_lt_inv in Nr.
    split.
    { left. split; [reflexivity|]. split; [|split; [reflexivity|apply Rabs_lt; lra]].
      unfold same_direction, radians. destruct (Rlt_bool _ _); [exists 1%Z; ring|exists 0%Z; ring]. }
    split; [split; nra|].
    split; [|split; [discriminate|intros _; split; nra]].
    destruct (Rlt_bool_spec (rb * (PI / 180)) 0); split; nra.
Qed.

Lemma center_km_spec phi lam pa latc lonc :
  exists X Z, center_km (A := ar_num) L pro radius (Num phi : ar_num) (Num lam : ar_num) (Num pa : ar_num) (Num latc : ar_num) (Num lonc : ar_num) = (Num X : ar_num, Num Z : ar_num) /\
    projects_to pro phi lam pa (spherical (centric_radius eq pol latc) latc (east pro lonc)) X Z.
Proof.
  unfold center_km. nums. unfold neg. nums.
  set (r := centric_radius eq pol latc).
  assert (Q : (if pro then (Num (r * cos latc * sin (lam - lonc)) : ar_num) else (Num (0 - r * cos latc * sin (lam - lonc)) : ar_num))
     = Num (r * cos latc * sin (east pro lonc - east pro lam))).
  { unfold east. destruct pro.
    - do 3 f_equal. ring.
    - replace (lonc - lam) with (- (lam - lonc)) by ring. rewrite sin_neg. f_equal. ring. }
  match goal with |- context [if pro then Num ?a else Num ?b] =>
    replace (if pro then Num a else Num b) with (Num (r * cos latc * sin (east pro lonc - east pro lam))) by (symmetry; exact Q) end.
  nums. eexists _, _. split; [reflexivity|].
  rewrite !Rminus_0_l, !cos_neg, !sin_neg.
  assert (Cs : cos (lam - lonc) = cos (east pro lonc - east pro lam)).
  { unfold east. destruct pro; [f_equal; ring|]. rewrite <- cos_neg. f_equal. ring. }
  rewrite Cs. set (l := east pro lonc). set (E := east pro lam).
  unfold projects_to, inner, rightward, northward, spherical, vget. cbn [sum_to nth]. fold E.
  rewrite sin_minus, cos_minus. split; ring.
Qed.

Lemma shifted r lat lon k : spherical r lat (east pro (lon + 2 * PI * IZR k)) = spherical r lat (east pro lon).
Proof.
  assert (C : forall x n, cos (x + 2 * PI * IZR n) = cos x /\ sin (x + 2 * PI * IZR n) = sin x).
  { intros x n. destruct (Z_lt_le_dec n 0) as [H|H].
    - replace n with (- Z.of_nat (Z.to_nat (- n)))%Z by lia. rewrite opp_IZR, <- INR_IZR_INZ. set (m := Z.to_nat (- n)).
      rewrite <- (cos_period (x + 2 * PI * - INR m) m), <- (sin_period (x + 2 * PI * - INR m) m).
      split; f_equal; ring.
    - replace n with (Z.of_nat (Z.to_nat n))%Z by lia. rewrite <- INR_IZR_INZ. set (m := Z.to_nat n).
      rewrite <- (cos_period x m), <- (sin_period x m). split; f_equal; ring. }
  unfold spherical, east. destruct pro.
  - replace (- (lon + 2 * PI * IZR k)) with (- lon + 2 * PI * IZR (- k)) by (rewrite opp_IZR; ring).
    destruct (C (- lon) (- k)%Z) as [-> ->]. reflexivity.
  - destruct (C lon k) as [-> ->]. reflexivity.
Qed.

Lemma visible_longitude_shift (phi lam : num) latc lonc polar (v : num) :
  visible_longitude (A := ar_num) L num_acos (Num eq : ar_num) (Num pol : ar_num) phi lam (Num latc : ar_num) (Num lonc : ar_num) polar = Ok v ->
  exists k, v = Num (lonc + 2 * PI * IZR k).
Proof.
  unfold visible_longitude. destruct (a_lt ar_num _ (a_of_Z ar_num (-1))); [discriminate|].
  match goal with |- context [a_lt ar_num (Num lonc) ?lo] => destruct (a_lt ar_num (Num lonc) lo) end.
  - match goal with |- (if ?b then _ else _) = _ -> _ => destruct b end; [discriminate|].
    intros E. apply Ok_inj in E. subst v. exists 1%Z. nums. f_equal. ring.
  - match goal with |- context [if a_lt ar_num ?up (Num lonc) then _ else Num lonc] => destruct (a_lt ar_num up (Num lonc)) end;
    (match goal with |- (if ?b then _ else _) = _ -> _ => destruct b end; [discriminate|]);
    intros E; apply Ok_inj in E; subst v; [exists (-1)%Z|exists 0%Z]; nums; f_equal; ring.
Qed.

(** The constructed projection and its view. *)
Lemma new_spec (a b g : num) (kpp : R) (c : center ar_num) p samples lines :
  onew a b g (Num kpp : ar_num) c = Ok p -> (0 < samples)%Z -> (0 < lines)%Z ->
  exists ra rb rg phi lam pa k sc lc, a = Num ra /\ b = Num rb /\ g = Num rg /\
    view_of eq pol pro ra rb rg kpp c samples lines phi lam pa k sc lc /\
    o_lat p = Num phi /\ o_lon p = Num lam /\ o_pa p = Num pa /\
    map_parameters (A := ar_num) (Num eq : ar_num) (Num pol : ar_num) p samples lines = (Num k : ar_num, Num sc : ar_num, Num lc : ar_num) /\
    (o_polar p = true -> cos phi = 0 /\ sin pa = 0) /\
    (o_polar p = false -> - (PI / 2) < phi < PI / 2) /\ 0 <= lam <= 2 * PI.
Proof.
  intros E Hs Hl. unfold ortho_new in E.
  destruct (orientation (A := ar_num) L pro a b g) as [[[[phi lam] pa] polar]| |] eqn:O; [|discriminate..].
  apply orientation_spec in O. destruct O as (ra & rb & rg & rphi & rlam & rpa & -> & -> & -> & -> & -> & -> & Or & Ph & Lm & Po & Np).
  cbn [bind] in E.
  set (mn := Z.min samples lines) in *. assert (Hm : (0 < mn)%Z) by lia. apply IZR_lt in Hm.
  set (k := if Rlt_bool 0 kpp then kpp else 2 * eq / (9 / 10 * IZR mn)).
  assert (Hk : 0 < k /\ resolution eq kpp samples lines k).
  { unfold k, resolution. fold mn. destruct (Rlt_bool_spec 0 kpp).
    - split; [lra|]. left. split; [lra|reflexivity].
    - split; [apply Rdiv_lt_0_compat; lra|]. right. split; [lra|]. field. lra. }
  assert (Kp : forall s l la lo pl, exists q, (if a_le ar_num (o_kpp (@Ortho ar_num (Num rphi) (Num rlam) (Num rpa)
         (if a_lt ar_num (a_of_Z ar_num 0) (Num kpp) then Num kpp else a_of_Z ar_num (-1)) s l la lo pl)) (a_of_Z ar_num 0)
     then q else o_kpp (@Ortho ar_num (Num rphi) (Num rlam) (Num rpa)
         (if a_lt ar_num (a_of_Z ar_num 0) (Num kpp) then Num kpp else a_of_Z ar_num (-1)) s l la lo pl)) = Num k /\
     q = a_div ar_num (a_mul ar_num (a_of_Z ar_num 2) (if a_lt ar_num (Num eq) (Num pol) then Num pol else Num eq))
            (a_mul ar_num (a_div ar_num (a_of_Z ar_num 9) (a_of_Z ar_num 10)) (a_of_Z ar_num mn))).
  { intros s l la lo pl. eexists. split; [|reflexivity]. cbn [o_kpp]. nums. unfold k, a_le. nums. fold mn.
    destruct (Rlt_bool_spec 0 kpp).
    - nums. rewrite Rlt_bool_true by lra. reflexivity.
    - nums. rewrite (Rlt_bool_false 0 (-1)) by lra. cbn [negb andb]. rewrite (Rlt_bool_false eq pol) by lra.
      nums. rewrite num_divide by lra. nums. rewrite num_divide by lra. reflexivity. }
  destruct c as [|s l|lat_c lon_c].
  - apply Ok_inj in E. subst p.
    exists ra, rb, rg, rphi, rlam, rpa, k, (IZR samples / 2), (IZR lines / 2). do 3 (split; [reflexivity|]).
    split; [constructor; try tauto; cbn; auto|]. do 3 (split; [reflexivity|]).
    split; [|cbn [o_polar]; auto].
    unfold map_parameters. destruct (Kp (NaN:ar_num) (NaN:ar_num) (NaN:ar_num) (NaN:ar_num) polar) as (q & Eq & ->). fold mn. rewrite Eq.
    cbn [o_latc o_lonc o_sc o_lc]. nums. cbn [negb andb orb]. rewrite !num_divide by lra. reflexivity.
  - apply Ok_inj in E. subst p.
    set (sc := match s, l with Num s, Num _ => s | _, _ => IZR samples / 2 end).
    set (lc := match s, l with Num _, Num l => l | _, _ => IZR lines / 2 end).
    exists ra, rb, rg, rphi, rlam, rpa, k, sc, lc. do 3 (split; [reflexivity|]).
    split; [constructor; try tauto; unfold sc, lc; cbn; destruct s, l; auto|]. do 3 (split; [reflexivity|]).
    split; [|cbn [o_polar]; auto].
    unfold map_parameters. destruct (Kp (s:ar_num) (l:ar_num) (NaN:ar_num) (NaN:ar_num) polar) as (q & Eq & ->). fold mn. rewrite Eq.
    cbn [o_latc o_lonc o_sc o_lc]. nums. cbn [negb andb]. unfold sc, lc.
    destruct s, l; nums; cbn [orb]; rewrite ?num_divide by lra; reflexivity.
  - destruct (validate_latitude (A := ar_num) _ lat_c) as [la| |] eqn:Va; [|discriminate..].
    destruct (validate_longitude (A := ar_num) _ lon_c) as [lo| |] eqn:Vb; [|discriminate..].
    apply validate_lat_inv in Va. destruct Va as (rla & -> & Ha & ->).
    apply validate_lon_inv in Vb. destruct Vb as (rlo & -> & Hb & ->).
    cbn [bind] in E.
    destruct (visible_longitude (A := ar_num) _ _ _ _ _ _ _ _ _) as [v| |] eqn:V; [|discriminate..].
    apply visible_longitude_shift in V. destruct V as (j & ->). cbn [bind] in E.
    destruct (center_km_spec rphi rlam rpa (rla * (PI / 180)) (rlo * (PI / 180) + 2 * PI * IZR j)) as (X & Z & Ec & Pr).
    rewrite Ec in E. apply Ok_inj in E. subst p.
    exists ra, rb, rg, rphi, rlam, rpa, k, (IZR samples / 2 - X / k), (IZR lines / 2 - Z / k). do 3 (split; [reflexivity|]).
    split.
    { constructor; try tauto. cbn [centered].
      exists (spherical (centric_radius eq pol (rla * (PI / 180))) (rla * (PI / 180)) (east pro (rlo * (PI / 180)))).
      split; [apply radius_on; assumption|]. split.
      - exists (centric_radius eq pol (rla * (PI / 180))). split; [apply radius_pos; assumption|reflexivity].
      - rewrite shifted in Pr. unfold km.
        replace ((IZR samples / 2 - (IZR samples / 2 - X / k)) * k) with X by (field; lra).
        replace ((IZR lines / 2 - (IZR lines / 2 - Z / k)) * k) with Z by (field; lra). exact Pr. }
    do 3 (split; [reflexivity|]). split; [|cbn [o_polar]; auto].
    unfold map_parameters.
    destruct (Kp (Num X:ar_num) (Num Z:ar_num) (Num (rla * (PI / 180)):ar_num) (Num (rlo * (PI / 180) + 2 * PI * IZR j):ar_num) polar) as (q & Eq & ->). fold mn. rewrite Eq.
    cbn [o_latc o_lonc o_sc o_lc]. nums. cbn [negb andb]. rewrite !num_divide by lra. reflexivity.
Qed.
End New.

(** * Cells *)
Section Cells.
Variables (low : R) (pro : bool) (eq pol : R).
Hypothesis Hpol : 0 < pol.
Hypothesis Hle : pol <= eq.
Local Notation L := (libm_num PI low).

Lemma discriminant_iff A B C : 0 < A -> (0 <= B * B - 4 * A * C <-> exists y, A * y * y - B * y + C = 0).
Proof.
  intros HA. split.
  - intros H. exists ((B + sqrt (B * B - 4 * A * C)) / (2 * A)). set (s := sqrt (B * B - 4 * A * C)).
    assert (S : s * s = B * B - 4 * A * C) by (apply sqrt_sqrt; assumption).
    assert (E : A * ((B + s) / (2 * A)) * ((B + s) / (2 * A)) - B * ((B + s) / (2 * A)) + C = (s * s - (B * B - 4 * A * C)) / (4 * A)) by (field; lra).
    rewrite E, S. field. lra.
  - intros [y Hy]. assert ((2 * A * y - B) * (2 * A * y - B) = B * B - 4 * A * C).
    { transitivity (4 * A * (A * y * y - B * y + C) + (B * B - 4 * A * C)); [ring|]. rewrite Hy. ring. }
    rewrite <- H. apply Rle_0_sqr.
Qed.

Lemma spherical_ray r r' lat l : 0 < r -> 0 < r' -> exists t, 0 < t /\ spherical r' lat l = vscale (spherical r lat l) t.
Proof.
  intros H H'. exists (r' / r). split; [now apply Rdiv_lt_0_compat|]. unfold spherical, vscale. cbn [map].
  f_equal; [|f_equal; [|f_equal]]; field; lra.
Qed.

Lemma seen_scale phi lam x y z t : vscale (seen pro phi lam x y z) t = seen pro phi lam (t * x) (t * y) (t * z).
Proof. unfold seen, fixed, vscale. cbn [map]. f_equal; [|f_equal; [|f_equal]]; ring. Qed.

Lemma seen_toward phi lam x y z : inner 3 (seen pro phi lam x y z) (toward pro phi lam) = - y.
Proof.
  unfold inner, toward, seen, fixed, spherical, vget. cbn [sum_to nth]. set (E := east pro lam).
  transitivity (- (y * cos phi + z * sin phi) * cos phi * (sin E * sin E + cos E * cos E) + (z * cos phi - y * sin phi) * sin phi); [ring|].
  rewrite sc1. transitivity (- y * (sin phi * sin phi + cos phi * cos phi)); [ring|]. rewrite sc1. ring.
Qed.

Lemma seen_vec phi lam x y z : is_vec 3 (seen pro phi lam x y z).
Proof. reflexivity. Qed.

Lemma ortho_cells (a b g : num) kpp (c : center ar_num) p samples lines :
  ortho_new (A := ar_num) L num_acos (NaN : ar_num) pro (Num eq : ar_num) (Num pol : ar_num)
     (num1 (fun r => Num (centric_radius eq pol r)) : ar_num -> ar_num) a b g (Num kpp : ar_num) c = Ok p ->
  map_size samples lines -> (0 < samples)%Z -> (0 < lines)%Z ->
  exists ra rb rg phi lam pa k sc lc calls o, a = Num ra /\ b = Num rb /\ g = Num rg /\
    view_of eq pol pro ra rb rg kpp c samples lines phi lam pa k sc lc /\
    ortho_plot_map (A := ar_num) L num_roots pro (Num eq : ar_num) (Num pol : ar_num) p samples lines = (calls, Ok o) /\
    forall j i, (0 <= j < lines)%Z -> (0 <= i < samples)%Z ->
      let x := km k sc (IZR i + 1 / 2) in let z := km k lc (IZR j + 1 / 2) in
      ((exists q, plotted samples calls j i q) <->
       exists P, is_vec 3 P /\ on_spheroid eq pol P /\ projects_to pro phi lam pa P x z) /\
      forall q, plotted samples calls j i q -> exists lat lon, q = (Num lat : ar_num, Num lon : ar_num) /\
        - (PI / 2) <= lat <= PI / 2 /\
        (eq = pol \/ phi = 0 \/ phi = PI / 2 \/ phi = - (PI / 2) -> exists P, is_vec 3 P /\ on_spheroid eq pol P /\
           has_position pro P lat lon /\ projects_to pro phi lam pa P x z /\ facing eq pol pro phi lam P) /\
        (pol < eq -> phi <> 0 -> phi <> PI / 2 -> phi <> - (PI / 2) -> x * sin pa <> z * cos pa ->
         (forall P, is_vec 3 P -> on_spheroid eq pol P -> projects_to pro phi lam pa P x z -> inner 3 P (toward pro phi lam) <> 0) ->
         forall P, is_vec 3 P -> on_spheroid eq pol P -> has_position pro P lat lon -> ~ projects_to pro phi lam pa P x z).
Proof.
  intros New Sz Hs Hl.
  destruct (new_spec low pro eq pol Hpol Hle a b g kpp c p samples lines New Hs Hl)
    as (ra & rb & rg & phi & lam & pa & k & sc & lc & -> & -> & -> & V & Elat & Elon & Epa & Mp & Po & Np & Lm).
  destruct (ortho_offsets ar_num L num_roots pro (Num eq : ar_num) (Num pol : ar_num) p samples lines Sz) as (calls & o & Em & _ & _ & Pl).
  exists ra, rb, rg, phi, lam, pa, k, sc, lc, calls, o. do 3 (split; [reflexivity|]). split; [exact V|]. split; [exact Em|].
  intros j i Hj Hi x z.
  assert (Bphi := vo_latitude _ _ _ _ _ _ _ _ _ _ _ _ _ _ _ _ V).
  pose proof PI_RGT_0 as Ppi.
  destruct p as [p1 p2 p3 pk ps pl pla plo polar]. cbn [o_lat o_lon o_pa o_polar] in *. subst p1 p2 p3.
  specialize (fun q => Pl j i Hj Hi (Num k) (Num sc) (Num lc) Mp q).
  rewrite num_half in Pl. cbn [a_mul a_sub a_add a_of_Z ar_num num2] in Pl. fold (km k sc (IZR i + 1 / 2)) in Pl. fold (km k lc (IZR j + 1 / 2)) in Pl.
  fold x z in Pl.
  destruct (point_spec low pro eq pol phi lam pa pk ps pl pla plo polar Hpol Hle Po x z) as [[D N]|[D (y & lat & lon & Ry & Fy & Sm & Ps & Bl)]].
  all: set (u := x * cos pa + z * sin pa) in *; set (w := z * cos pa - x * sin pa) in *.
  all: assert (HA := qA_pos phi eq pol Hpol Hle).
  - (* no point *)
    assert (None' : forall q, ~ plotted samples calls j i q).
    { intros q H. apply Pl in H. pose proof (eq_trans (eq_sym N) H) as X. discriminate X. }
    split; [|intros q H; exfalso; exact (None' q H)].
    split.
    + intros [q H]. exfalso. exact (None' q H).
    + intros (P & VP & OP & PP). exfalso. destruct (seen_all pro phi lam P VP) as (x' & y' & z' & ->).
      apply seen_projects in PP. destruct PP as [-> ->]. fold u w in OP.
      apply (seen_on pro phi lam eq pol Hpol Hle) in OP.
      assert (0 <= qB phi eq pol w * qB phi eq pol w - 4 * qA phi eq pol * qC phi eq pol u w); [|lra].
      apply discriminant_iff; [exact HA|]. exists y'. exact OP.
  - assert (This : plotted samples calls j i (Num lat : ar_num, Num lon : ar_num)) by (apply Pl; exact Sm).
    split.
    + split; [intros _|intros _; eexists; exact This].
      apply discriminant_iff in D; [|exact HA]. destruct D as [y' Hy'].
      exists (seen pro phi lam u y' w). split; [apply seen_vec|]. split; [apply seen_on; assumption|].
      apply seen_projects. split; reflexivity.
    + intros q Hq. apply Pl in Hq. pose proof (eq_trans (eq_sym Sm) Hq) as E. injection E as <-.
      exists lat, lon. split; [reflexivity|]. split; [exact Bl|].
      assert (S2 : sin (2 * phi) = 0 <-> phi = 0 \/ phi = PI / 2 \/ phi = - (PI / 2)).
      { rewrite sin_2a. split.
        - intros H. assert (H' : sin phi * cos phi = 0) by lra. destruct (Rmult_integral _ _ H') as [K|K].
          + left. apply Rle_antisym.
            * destruct (Rle_lt_dec phi 0); [assumption|]. exfalso. pose proof (sin_gt_0 phi). lra.
            * destruct (Rle_lt_dec 0 phi); [assumption|]. exfalso. pose proof (sin_gt_0 (- phi)). rewrite sin_neg in *. lra.
          + right. destruct (cos_zero_pole phi Bphi K); auto.
        - intros [->|[->| ->]]; [rewrite sin_0|rewrite cos_PI2|rewrite cos_neg, cos_PI2]; ring. }
      split.
      * intros H. assert (B0 : qB phi eq pol w = 0).
        { unfold qB. destruct H as [->|H]; [ring|]. apply S2 in H. rewrite H. ring. }
        exists (seen pro phi lam u y w). split; [apply seen_vec|].
        split; [apply seen_on; [assumption..|]; rewrite B0 in *; lra|]. split; [exact Ps|].
        split; [apply seen_projects; split; reflexivity|].
        apply seen_facing; [assumption..|]. rewrite B0 in *. lra.
      * intros Ne N0 N1 N2 Nw Nz P VP OP (r & Hr & EP) PP.
        destruct Ps as (r0 & Hr0 & ES).
        destruct (spherical_ray r0 r lat (east pro lon) Hr0 Hr) as (t & Ht & Et).
        rewrite EP, Et, <- ES, seen_scale in PP. apply seen_projects in PP. fold u w in PP.
        destruct PP as [P1 P2]. assert (w <> 0) by (unfold w; lra).
        assert (t = 1) by (apply (Rmult_eq_reg_r w); [lra|assumption]). subst t.
        rewrite EP, Et, <- ES, seen_scale, !Rmult_1_l in OP. pose proof OP as OP0.
        apply (seen_on pro phi lam eq pol Hpol Hle) in OP.
        assert (B0 : qB phi eq pol w * y = 0) by lra. destruct (Rmult_integral _ _ B0) as [K|K].
        -- unfold qB in K. assert (0 < (eq - pol) * (eq + pol)) by nra.
           assert (K2 : w * sin (2 * phi) = 0) by nra. destruct (Rmult_integral _ _ K2) as [K3|K3]; [lra|].
           apply S2 in K3. tauto.
        -- apply (Nz (seen pro phi lam u y w)); [apply seen_vec|exact OP0|apply seen_projects; split; reflexivity|].
           rewrite seen_toward. lra.
Qed.
End Cells.
