(** Grids that are not drawn (C49): undefined conversions and endless loops. *)
From Coq Require Import List ZArith Reals Lra Lia Bool.
From Flocq Require Import Core BinarySingleNaN.
From Verif Require Import Base BaseFacts Flt FltFacts Num Maths_Model Spheroid_Model
  Proj_Model Proj_Spec Proj_Proofs ProjGrid_Proofs ProjGridR_Proofs.
Import ListNotations.
Open Scope R_scope.

(** A loop with an iteration that never succeeds ends, unsuccessfully. *)
Lemma for_loop_fails {V G} (test : V -> bool) (next : V -> V) (body : V -> G -> outcome G) (v : nat -> V) (j : nat) :
  (forall i, (i <= j)%nat -> test (v i) = true) -> (forall i, (i < j)%nat -> next (v i) = v (S i)) ->
  (forall g g', body (v j) g <> Ok g') ->
  forall i fuel g, (i <= j)%nat -> (j - i < fuel)%nat ->
  exists r, for_loop fuel test next body (v i) g = Some r /\ forall g', r <> Ok g'.
Proof.
  intros T N B i fuel. revert i. induction fuel as [|n IH]; intros i g Hi Hf; [lia|].
  cbn [for_loop]. rewrite T by exact Hi. destruct (body (v i) g) as [g'|e|u] eqn:E.
  - assert (i < j)%nat. { destruct (Nat.eq_dec i j) as [->|]; [|lia]. exfalso. exact (B _ _ E). }
    rewrite N by lia. apply IH; lia.
  - eexists. split; [reflexivity|discriminate].
  - eexists. split; [reflexivity|discriminate].
Qed.

Section Undefined.
Context (c low : R) (Hc : 0 < c).
Local Notation L := (libm_num c low).

Lemma to_degrees' x : num_div (Num (c / 180 * x)) (Num (c / 180)) = Num x.
Proof. apply to_degrees. exact Hc. Qed.

(** A grid meridian more than half a sample west of the western edge makes the
    conversion of a negative number to std::size_t. *)
Lemma sc_grid_undefined prograde lo hi a b gl samples lines iv jv m : map_size samples lines ->
  0 < iv -> 0 < jv -> lo < hi -> a < b -> 0 <= a -> grid_longitude jv m ->
  (m - a) / (b - a) * IZR samples < - (1 / 2) ->
  exists n0, forall fuel, (n0 <= fuel)%nat ->
    make_grid samples lines (sc_plot_grid L prograde (edges c lo hi a b gl) fuel samples lines
      (Num iv : ar_num) (Num jv : ar_num)) = Some (UB ub_conversion).
Proof.
  intros Hmap Hiv Hjv Hlo Hab Ha (j & Hj & Em & Hm) Hneg.
  set (ordinate := fun n => a_mul ar_num (a_sub ar_num n (Num lo)) (a_div ar_num (a_of_Z ar_num lines) (a_sub ar_num (Num hi) (Num lo)))).
  set (abscissa := fun m => let lo_lon_2 := if a_lt ar_num (a_of_Z ar_num 360) (a_sub ar_num m (Num a)) then a_add ar_num (Num a) (a_of_Z ar_num 360) else (Num a : ar_num) in
       a_mul ar_num (a_sub ar_num m lo_lon_2) (a_div ar_num (a_of_Z ar_num samples) (a_sub ar_num (Num b) (Num a)))).
  destruct (latitude_content c low samples lines Hmap iv ordinate (fun n => (n - lo) / (hi - lo) * IZR lines)
    (repeat 0%Z (Z.to_nat (wrap (samples * lines)))) Hiv) as (g1 & n1 & E1 & _).
  { intros n G. unfold ordinate. cbn [a_mul a_sub a_div a_of_Z ar_num num2]. rewrite num_divide by lra. cbn [num2]. f_equal. field. lra. }
  { apply (blank_bw samples lines Hmap). }
  exists (Nat.max n1 (S (Z.to_nat j))). intros fuel Hf.
  assert (D := cylindrical_safe L samples lines Hmap num_converts (num_row_starts c low samples lines Hmap) fuel prograde
     (Num iv : ar_num) (Num jv : ar_num) ordinate abscissa).
  replace (make_grid samples lines (sc_plot_grid L prograde (edges c lo hi a b gl) fuel samples lines (Num iv : ar_num) (Num jv : ar_num)))
    with (make_grid samples lines (fun g => then_loop (latitude_lines L fuel samples lines (Num iv : ar_num) ordinate g)
      (longitude_lines L fuel prograde samples lines (Num jv : ar_num) abscissa))).
  2:{ unfold make_grid, sc_plot_grid, edges.
      cbn [sc_lo_lat sc_hi_lat sc_lo_lon sc_hi_lon a_div ar_num libm_num l_degree]. rewrite !to_degrees'. reflexivity. }
  unfold make_grid in *. rewrite E1 in * by lia. cbn [then_loop] in *.
  destruct (for_loop_fails (fun m => a_lt ar_num (a_of_Z ar_num 0) m) (fun m => a_sub ar_num m (Num jv))
     (draw_longitude L prograde samples lines abscissa) (fun i => (Num (360 - INR i * jv) : ar_num)) (Z.to_nat j))
    with (i := 0%nat) (fuel := fuel) (g := g1) as (r & Er & Br).
  - intros i Hi. cbn [a_lt ar_num num_lt a_of_Z]. apply Rlt_bool_true. simpl.
    assert (INR i <= IZR j) by (rewrite INR_IZR_INZ; apply IZR_le; lia).
    assert (INR i * jv <= IZR j * jv) by (apply Rmult_le_compat_r; lra). lra.
  - intros i Hi. cbn [a_sub ar_num num2]. f_equal. rewrite S_INR. ring.
  - intros g g'. unfold draw_longitude.
    assert (EA : abscissa (Num (360 - INR (Z.to_nat j) * jv)) = Num ((m - a) / (b - a) * IZR samples)).
    { unfold abscissa. cbn [a_mul a_sub a_div a_of_Z a_lt a_add ar_num num2 num_lt].
      replace (360 - INR (Z.to_nat j) * jv) with m by (rewrite Em, INR_IZR_INZ, Z2Nat.id by lia; reflexivity).
      rewrite Rlt_bool_false.
      - rewrite num_divide by lra. cbn [num2]. f_equal. field. lra.
      - assert (0 <= IZR j * jv) by (apply Rmult_le_pos; [apply IZR_le in Hj; exact Hj|lra]). lra. }
    rewrite EA, round_num. cbn [a_size ar_num num_size]. rewrite Ztrunc_IZR.
    assert (ZnearestA ((m - a) / (b - a) * IZR samples) < 0)%Z.
    { pose proof (Znearest_half (Zle_bool 0) ((m - a) / (b - a) * IZR samples)) as Hh. apply Rabs_le_inv in Hh.
      apply lt_IZR. simpl. lra. }
    destruct (Z.leb_spec 0 (ZnearestA ((m - a) / (b - a) * IZR samples))) as [X|X]; [lia|]. discriminate.
  - lia.
  - lia.
  - unfold longitude_lines in *. replace (a_of_Z ar_num 360) with (Num (360 - INR 0 * jv) : ar_num) in *
      by (cbn [a_of_Z ar_num]; f_equal; simpl; ring).
    rewrite Er in *. destruct r as [g|e|u]; [exfalso; exact (Br g eq_refl)|contradiction|].
    cbn [drawn] in D. rewrite D. reflexivity.
Qed.
End Undefined.

(** A latitude loop whose counter is stuck at -90 degrees. *)
Lemma latitude_stuck {A : arith} (L : libm A) samples lines interval ordinate :
  map_size samples lines -> row_starts L lines samples ->
  a_add A (a_of_Z A (-90)) interval = a_of_Z A (-90) -> a_lt A (a_of_Z A (-90)) (a_of_Z A 90) = true ->
  forall fuel g, black_or_white (samples * lines) g ->
    latitude_lines L fuel samples lines interval ordinate g = None.
Proof.
  intros Hmap Hl St Lt fuel g B. unfold latitude_lines. rewrite St.
  apply (for_loop_stuck _ _ _ (black_or_white (samples * lines))); [exact Lt|exact St| |exact B].
  clear g B. intros g B. destruct Hmap as (S0 & L0 & Hn). unfold draw_latitude.
  destruct (a_le A (a_of_Z A 0) (l_round L (ordinate (a_of_Z A (-90))))) eqn:E1; [|exists g; auto].
  destruct (a_lt A (l_round L (ordinate (a_of_Z A (-90)))) (a_of_Z A lines)) eqn:E2; [|exists g; auto]. cbn [andb].
  destruct (Hl (ordinate (a_of_Z A (-90))) E1 E2) as (z & Hz & ->). cbn [bind].
  destruct (fill_row_bw (samples * lines) (Z.to_nat samples) (z * samples) g) as (g1 & G & B1); [nia|nia|exact B|].
  exists g1. auto.
Qed.

Lemma grid_stuck {A : arith} (L : libm A) prograde samples lines interval jv ordinate abscissa :
  map_size samples lines -> row_starts L lines samples ->
  a_add A (a_of_Z A (-90)) interval = a_of_Z A (-90) -> a_lt A (a_of_Z A (-90)) (a_of_Z A 90) = true ->
  forall fuel, make_grid samples lines (fun g => then_loop
    (latitude_lines L fuel samples lines interval ordinate g)
    (longitude_lines L fuel prograde samples lines jv abscissa)) = None.
Proof.
  intros Hmap Hl St Lt fuel. unfold make_grid. rewrite latitude_stuck by (auto using blank_bw). reflexivity.
Qed.

(** Interval 0. *)
Lemma num_zero_stuck : a_add ar_num (a_of_Z ar_num (-90)) (Num 0) = a_of_Z ar_num (-90) /\
  a_lt ar_num (a_of_Z ar_num (-90)) (a_of_Z ar_num 90) = true.
Proof. cbn [a_add a_of_Z ar_num num2 a_lt num_lt]. split; [f_equal; ring|apply Rlt_bool_true; lra]. Qed.

(** Doubles below 2^-47, half the distance from -90 to the next double. *)
#[local] Existing Instance prec53.
#[local] Existing Instance emax53.
Local Notation fexp := (SpecFloat.fexp 53 1024).

Lemma ulp_90 : ulp radix2 fexp 90 = bpow radix2 (-46).
Proof.
  rewrite ulp_neq_0 by lra. f_equal. unfold cexp.
  rewrite (mag_unique radix2 90 7); [reflexivity|]. rewrite Rabs_pos_eq by lra. simpl. lra.
Qed.

Lemma succ_m90 : succ radix2 fexp (-90) = -90 + bpow radix2 (-46).
Proof.
  unfold succ. rewrite Rle_bool_false by lra. replace (- -90) with 90 by ring. unfold pred_pos.
  rewrite (mag_unique radix2 90 7) by (rewrite Rabs_pos_eq by lra; simpl; lra).
  rewrite Req_bool_false by (simpl; lra). rewrite ulp_90. ring.
Qed.

Lemma double_stuck (x : double) : is_finite x = true -> 0 <= B2R x < bpow radix2 (-47) ->
  Bplus mode_NE (double_of_Z (-90)) x = double_of_Z (-90).
Proof.
  intros F H. destruct (double_of_Z_exact (-90) ltac:(lia)) as [F9 V9].
  assert (G9 : generic_format radix2 fexp (-90)) by (rewrite <- V9; apply generic_format_B2R).
  assert (R : round radix2 fexp (Znearest (fun x => negb (Z.even x))) (-90 + B2R x) = -90).
  { apply Rle_antisym.
    - apply round_N_le_midp; [typeclasses eauto|exact G9|]. rewrite succ_m90.
      change (bpow radix2 (-46)) with (bpow radix2 (1 + -47)). rewrite bpow_plus. change (bpow radix2 1) with 2. lra.
    - apply round_ge_generic; [typeclasses eauto|apply valid_rnd_N|exact G9|lra]. }
  pose proof (Bplus_correct 53 1024 _ _ mode_NE (double_of_Z (-90)) x F9 F) as P.
  rewrite V9 in P. change (round_mode mode_NE) with (Znearest (fun x => negb (Z.even x))) in P. rewrite R in P.
  rewrite Rlt_bool_true in P.
  2:{ rewrite Rabs_left by lra. apply Rlt_trans with (bpow radix2 7); [simpl; lra|apply bpow_lt; lia]. }
  destruct P as (V & Fp & _). apply B2R_inj.
  - apply is_finite_strict_B2R. rewrite V. lra.
  - apply is_finite_strict_B2R. rewrite V9. simpl. lra.
  - rewrite V, V9. reflexivity.
Qed.

Lemma double_m90_lt : flt (double_of_Z (-90)) (double_of_Z 90) = true.
Proof.
  destruct (double_of_Z_exact (-90) ltac:(lia)) as [F V]. destruct (double_of_Z_exact 90 ltac:(lia)) as [F' V'].
  pose proof (flt_spec (double_of_Z (-90)) (double_of_Z 90) (finite_not_nan _ F) (finite_not_nan _ F')) as S.
  rewrite S, !fval_finite, V, V' by assumption. apply Rlt_bool_true. simpl. lra.
Qed.
