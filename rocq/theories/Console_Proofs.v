(** Proofs about the progress display. *)
From Coq Require Import List ZArith Bool Reals Lra Lia.
From Flocq Require Import Core BinarySingleNaN Relative.
From Verif Require Import Base Flt FltFacts Num Extrema_Model MakeMap_Model MakeMap_Spec
  Virtual_Proofs Console_Model Console_Spec.
Import ListNotations.
Open Scope R_scope.

#[local] Existing Instance prec53.
#[local] Existing Instance emax53.
Local Notation rnd := (round radix2 (SpecFloat.fexp 53 1024) ZnearestE).
#[local] Instance valid53' : Valid_exp (SpecFloat.fexp 53 1024) := fexp_correct 53 1024 eq_refl.

(** ** The percentage *)

Lemma rnd_int z : (Z.abs z <= 2 ^ 53)%Z -> rnd (IZR z) = IZR z.
Proof.
  intros H. destruct (double_of_Z_exact z H) as [F E]. rewrite <- E.
  apply round_generic; [apply valid_rnd_N|]. apply generic_format_B2R.
Qed.

Lemma size_double n : (0 < n < 2 ^ 64)%Z -> is_finite (double_of_Z n) = true /\ 1 <= B2R (double_of_Z n).
Proof.
  intros H. destruct (double_of_Z_round n) as [F E]; [lia|]. split; [exact F|].
  pose proof (double_of_Z_mono 1 n ltac:(lia) ltac:(lia) ltac:(lia)) as M.
  rewrite (proj2 (double_of_Z_exact 1 ltac:(lia))) in M. exact M.
Qed.

Lemma quotient_range c n : (0 < n < 2 ^ 64)%Z -> (0 <= c <= n)%Z ->
  is_finite (Bdiv mode_NE (double_of_Z c) (double_of_Z n)) = true /\
  B2R (Bdiv mode_NE (double_of_Z c) (double_of_Z n)) = rnd (B2R (double_of_Z c) / B2R (double_of_Z n)) /\
  0 <= B2R (Bdiv mode_NE (double_of_Z c) (double_of_Z n)) <= 1.
Proof.
  intros Hn Hc. destruct (size_double n Hn) as [Fn Bn].
  destruct (double_of_Z_round c ltac:(lia)) as [Fc _].
  pose proof (double_of_Z_mono 0 c ltac:(lia) ltac:(lia) ltac:(lia)) as M0.
  pose proof (double_of_Z_mono c n ltac:(lia) ltac:(lia) ltac:(lia)) as M1.
  rewrite (proj2 (double_of_Z_exact 0 ltac:(lia))) in M0.
  set (x := B2R (double_of_Z c)) in *. set (y := B2R (double_of_Z n)) in *.
  assert (Q0 : 0 <= x / y) by (apply Rmult_le_pos; [lra|left; apply Rinv_0_lt_compat; lra]).
  assert (Q1 : x / y <= 1).
  { apply Rmult_le_reg_r with y; [lra|]. unfold Rdiv. rewrite Rmult_assoc, Rinv_l by lra. lra. }
  assert (R0 : 0 <= rnd (x / y)).
  { apply rnd_le in Q0. now rewrite (rnd_int 0 ltac:(lia)) in Q0. }
  assert (R1 : rnd (x / y) <= 1).
  { apply rnd_le in Q1. now rewrite (rnd_int 1 ltac:(lia)) in Q1. }
  destruct (div_round (double_of_Z c) (double_of_Z n) Fc) as [F E].
  - fold y. lra.
  - fold x y. rewrite Rabs_pos_eq by exact R0.
    apply Rle_lt_trans with 1; [exact R1|]. change 1 with (bpow radix2 0). apply bpow_lt. lia.
  - fold x y in E. rewrite E. auto.
Qed.

Lemma product_range c n : (0 < n < 2 ^ 64)%Z -> (0 <= c <= n)%Z ->
  let v := Bmult mode_NE (Bdiv mode_NE (double_of_Z c) (double_of_Z n)) (double_of_Z 100) in
  is_finite v = true /\
  B2R v = rnd (rnd (B2R (double_of_Z c) / B2R (double_of_Z n)) * 100) /\ 0 <= B2R v <= 100.
Proof.
  intros Hn Hc v. destruct (quotient_range c n Hn Hc) as (F & E & B).
  destruct (double_of_Z_exact 100 ltac:(lia)) as [F1 E1].
  set (q := Bdiv mode_NE (double_of_Z c) (double_of_Z n)) in *.
  assert (R0 : 0 <= rnd (B2R q * 100)).
  { rewrite <- (rnd_int 0 ltac:(lia)). apply rnd_le. lra. }
  assert (R1 : rnd (B2R q * 100) <= 100).
  { rewrite <- (rnd_int 100 ltac:(lia)) at 2. apply rnd_le. lra. }
  destruct (mult_round q (double_of_Z 100) F F1) as [Fv Ev].
  - rewrite E1, Rabs_pos_eq by exact R0.
    apply Rle_lt_trans with (bpow radix2 7); [|apply bpow_lt; lia].
    eapply Rle_trans; [exact R1|]. apply (IZR_le 100 128). lia.
  - fold v in Fv, Ev. rewrite E1 in Ev. rewrite Ev, E. rewrite E in R0, R1. auto.
Qed.

Lemma percent_ok c n : (0 < n < 2 ^ 64)%Z -> (0 <= c <= n)%Z ->
  exists p, percent_complete n c = Ok p /\ (0 <= p <= 100)%Z /\
    p = Ztrunc (rnd (rnd (B2R (double_of_Z c) / B2R (double_of_Z n)) * 100)).
Proof.
  intros Hn Hc. destruct (product_range c n Hn Hc) as (F & E & B).
  set (v := Bmult _ _ _) in *.
  assert (T : (0 <= Ztrunc (B2R v) <= 100)%Z).
  { split; [rewrite <- (Ztrunc_IZR 0)|rewrite <- (Ztrunc_IZR 100)]; apply Ztrunc_le; lra. }
  exists (Ztrunc (B2R v)). split; [|split; [exact T|now rewrite E]].
  unfold percent_complete. fold v.
  rewrite int_of_double_ok; [|unfold size_mod; lia|exact F|].
  - cbn [bind]. destruct (Z.leb_spec (Ztrunc (B2R v)) 100); [reflexivity|lia].
  - assert (100 < IZR (size_mod - 1)) by (apply (IZR_lt 100); unfold size_mod; lia). lra.
Qed.

Lemma percent_full n : (0 < n < 2 ^ 64)%Z -> percent_complete n n = Ok 100%Z.
Proof.
  intros Hn. destruct (percent_ok n n Hn ltac:(lia)) as (p & -> & _ & ->).
  destruct (size_double n Hn) as [_ B]. unfold Rdiv. rewrite Rinv_r by lra.
  rewrite (rnd_int 1 ltac:(lia)), Rmult_1_l, (rnd_int 100 ltac:(lia)), Ztrunc_IZR. reflexivity.
Qed.

(** ** The display *)

Lemma sweep (f : Z -> Z -> list piece) :
  (forall a b, In a (map Z.of_nat (seq 0 101)) -> In b (map Z.of_nat (seq 0 101)) ->
     f a b = if (a <? b)%Z then firstn (Z.to_nat (b / 2) - Z.to_nat (a / 2)) (skipn (Z.to_nat (a / 2)) bar) else []) ->
  forall a b, (0 <= a <= 100)%Z -> (0 <= b <= 100)%Z ->
     f a b = if (a <? b)%Z then firstn (Z.to_nat (b / 2) - Z.to_nat (a / 2)) (skipn (Z.to_nat (a / 2)) bar) else [].
Proof.
  intros H a b Ha Hb. apply H; apply in_map_iff.
  - exists (Z.to_nat a). split; [lia|]. apply in_seq. lia.
  - exists (Z.to_nat b). split; [lia|]. apply in_seq. lia.
Qed.

Definition piece_eqb (x y : piece) : bool :=
  match x, y with
  | Dot, Dot | Hundred, Hundred => true
  | Number a, Number b => Z.eqb a b
  | _, _ => false
  end.
Fixpoint pieces_eqb (l m : list piece) : bool :=
  match l, m with
  | [], [] => true
  | x :: l, y :: m => piece_eqb x y && pieces_eqb l m
  | _, _ => false
  end.
Lemma pieces_eqb_eq l : forall m, pieces_eqb l m = true -> l = m.
Proof.
  induction l as [|x l IH]; intros [|y m] H; try discriminate; [reflexivity|].
  cbn in H. apply andb_prop in H. destruct H as [H1 H2]. rewrite (IH m H2). f_equal.
  destruct x, y; try discriminate; auto. cbn in H1. apply Z.eqb_eq in H1. now subst.
Qed.

(** One notification prints the steps between the old percentage and the new. *)
Lemma print_between : forall old percent, (0 <= old <= 100)%Z -> (0 <= percent <= 100)%Z ->
  (if (old <? percent)%Z then print_steps 51 (old + 1 + (old + 1) mod 2)%Z percent else []) =
  if (old <? percent)%Z
  then firstn (Z.to_nat (percent / 2) - Z.to_nat (old / 2)) (skipn (Z.to_nat (old / 2)) bar) else [].
Proof.
  apply sweep.
  assert (C : forallb (fun a => forallb (fun b =>
      pieces_eqb (if (a <? b)%Z then print_steps 51 (a + 1 + (a + 1) mod 2)%Z b else [])
        (if (a <? b)%Z then firstn (Z.to_nat (b / 2) - Z.to_nat (a / 2)) (skipn (Z.to_nat (a / 2)) bar) else []))
      (map Z.of_nat (seq 0 101))) (map Z.of_nat (seq 0 101)) = true) by (vm_compute; reflexivity).
  intros a b Ha Hb. rewrite forallb_forall in C. specialize (C a Ha).
  rewrite forallb_forall in C. apply pieces_eqb_eq, (C b Hb).
Qed.

Lemma firstn_more {A} (l : list A) a b : (a <= b)%nat ->
  firstn a l ++ firstn (b - a) (skipn a l) = firstn b l.
Proof.
  revert l b. induction a as [|a IH]; intros l b H; [now rewrite Nat.sub_0_r|].
  destruct b; [lia|]. destruct l; cbn; [now rewrite firstn_nil|]. now rewrite IH by lia.
Qed.

(** The display after any history: the first steps of the bar, up to the
    greatest percentage reported. *)
Lemma run_prefix n counts : history n counts -> forall old, (0 <= old <= 100)%Z ->
  exists new out, console_run old (map (Notify n) counts) = Ok (new, out) /\
    (old <= new <= 100)%Z /\
    firstn (Z.to_nat (old / 2)) bar ++ out = firstn (Z.to_nat (new / 2)) bar /\
    (forall c p, In c counts -> percent_complete n c = Ok p -> (p <= new)%Z) /\
    (new = old \/ exists c, In c counts /\ percent_complete n c = Ok new).
Proof.
  intros [Hn Hc]. induction counts as [|c counts IH]; intros old Ho.
  - exists old, []. cbn. rewrite app_nil_r. repeat split; auto; try lia.
  - destruct (percent_ok c n Hn (Hc c (or_introl eq_refl))) as (p & Ep & Bp & _).
    cbn [map console_run]. unfold console_notify. rewrite Ep. cbn [bind].
    pose proof (print_between old p Ho Bp) as P.
    assert (Step : exists o1, (if (old <? p)%Z
        then Ok (p, print_steps 51 (old + 1 + (old + 1) mod 2)%Z p) else Ok (old, [])) = Ok (Z.max old p, o1) /\
        firstn (Z.to_nat (old / 2)) bar ++ o1 = firstn (Z.to_nat (Z.max old p / 2)) bar).
    { destruct (Z.ltb_spec old p) as [L|L].
      - rewrite Z.max_r by lia. eexists. split; [reflexivity|]. rewrite P. apply firstn_more.
        apply Z2Nat.inj_le; try (apply Z.div_pos; lia). apply Z.div_le_mono; lia.
      - rewrite Z.max_l by lia. eexists. split; [reflexivity|]. apply app_nil_r. }
    destruct Step as (o1 & E1 & A1). rewrite E1. cbn [bind fst snd].
    destruct (IH ltac:(intros; apply Hc; now right) (Z.max old p) ltac:(lia))
      as (new & out & E & B & A & M & D).
    rewrite E. cbn [bind fst snd]. exists new, (o1 ++ out). split; [reflexivity|]. split; [lia|].
    split; [now rewrite app_assoc, A1|]. split.
    + intros c' p' [<-|Hin] Hp; [rewrite Ep in Hp; injection Hp as <-; lia|eauto].
    + destruct D as [D|(c' & I & D)]; [|right; eauto using in_cons].
      destruct (Z.max_spec old p) as [[L E']|[L E']]; rewrite E' in D.
      * right. exists c. split; [now left|]. now rewrite D.
      * now left.
Qed.

Lemma display_prefix n counts : history n counts ->
  exists new out, console_run console_new (map (Notify n) counts) = Ok (new, out) /\
    (0 <= new <= 100)%Z /\ out = firstn (Z.to_nat (new / 2)) bar /\
    (forall c p, In c counts -> percent_complete n c = Ok p -> (p <= new)%Z) /\
    (new = 0%Z \/ exists c, In c counts /\ percent_complete n c = Ok new).
Proof.
  intros H. destruct (run_prefix n counts H 0%Z ltac:(lia)) as (new & out & E & B & A & M & D).
  exists new, out. repeat split; auto; lia.
Qed.

Lemma run_app old a b : console_run old (a ++ b) =
  bind (console_run old a) (fun r => bind (console_run (fst r) b) (fun r' => Ok (fst r', snd r ++ snd r'))).
Proof.
  revert old. induction a as [|[n c|] a IH]; intros old.
  - cbn. destruct (console_run old b) as [[x y]| |]; reflexivity.
  - cbn [app console_run]. destruct (console_notify old n c) as [[x y]| |]; cbn [bind fst snd]; auto.
    rewrite IH. destruct (console_run x a) as [[x' y']| |]; cbn [bind fst snd]; auto.
    destruct (console_run x' b) as [[x'' y'']| |]; cbn [bind fst snd]; auto. now rewrite app_assoc.
  - cbn [app console_run]. apply IH.
Qed.

Lemma display_complete n counts : history n counts -> In n counts ->
  console_run console_new (map (Notify n) counts ++ [Reset]) = Ok (console_new, bar).
Proof.
  intros H I. destruct (display_prefix n counts H) as (new & out & E & B & A & M & _).
  pose proof (M n 100%Z I (percent_full n (proj1 H))) as L.
  assert (new = 100%Z) as -> by lia.
  rewrite run_app, E. cbn [bind fst snd console_run]. rewrite app_nil_r, A. reflexivity.
Qed.

Lemma progress_map n k : progress n k = map (Notify n) (map Z.of_nat (seq 1 k)).
Proof. unfold progress. now rewrite map_map. Qed.

Lemma display_plane n k : (0 < n < 2 ^ 64)%Z -> (Z.of_nat k <= n)%Z ->
  console_run console_new (progress n k ++ [Notify n n; Reset]) = Ok (console_new, bar).
Proof.
  intros Hn Hk.
  replace (progress n k ++ [Notify n n; Reset])
    with (map (Notify n) (map Z.of_nat (seq 1 k) ++ [n]) ++ [Reset])
    by (rewrite map_app, <- progress_map, <- app_assoc; reflexivity).
  apply display_complete.
  - split; [exact Hn|]. intros c Hc. apply in_app_or in Hc. destruct Hc as [Hc|[<-|[]]]; [|lia].
    apply in_map_iff in Hc. destruct Hc as (i & <- & Hi). apply in_seq in Hi. lia.
  - apply in_or_app. right. now left.
Qed.

Lemma display_planes n k planes : (0 < n < 2 ^ 64)%Z -> (Z.of_nat k <= n)%Z ->
  console_run console_new (concat (repeat (progress n k ++ [Notify n n; Reset]) planes)) =
  Ok (console_new, concat (repeat bar planes)).
Proof.
  intros Hn Hk. induction planes as [|m IH]; [reflexivity|].
  cbn [repeat concat]. rewrite run_app, display_plane by assumption.
  cbn [bind fst snd]. rewrite IH. reflexivity.
Qed.

(** ** Accuracy of the percentage *)

Lemma rel_round x : bpow radix2 (-100) <= x ->
  exists e, Rabs e <= bpow radix2 (-53) /\ rnd x = x * (1 + e).
Proof.
  intros H.
  destruct (relative_error_N_FLT_ex radix2 (-1074) 53 ltac:(lia) (fun z => negb (Z.even z)) x) as (e & He & E).
  - rewrite Rabs_pos_eq.
    + eapply Rle_trans; [|exact H]. apply bpow_le. lia.
    + eapply Rle_trans; [|exact H]. apply bpow_ge_0.
  - exists e. split; [|exact E].
    eapply Rle_trans; [exact He|]. right. change (/ 2) with (bpow radix2 (-1)). rewrite <- bpow_plus. reflexivity.
Qed.

Lemma percent_accurate c n p : (0 < n < 2 ^ 64)%Z -> (0 <= c <= n)%Z ->
  percent_complete n c = Ok p ->
  IZR p - bpow radix2 (-40) <= 100 * IZR c / IZR n < IZR p + 1 + bpow radix2 (-40).
Proof.
  intros Hn Hc Hp. destruct (percent_ok c n Hn Hc) as (p' & E & _ & V).
  rewrite Hp in E. injection E as <-.
  assert (P40 : 0 < bpow radix2 (-40)) by apply bpow_gt_0.
  destruct (Z.eq_dec c 0) as [->|Hc0].
  { rewrite (proj2 (double_of_Z_exact 0 ltac:(lia))) in V. unfold Rdiv in V at 1.
    rewrite Rmult_0_l, (rnd_int 0 ltac:(lia)), Rmult_0_l, (rnd_int 0 ltac:(lia)), Ztrunc_IZR in V. subst p.
    unfold Rdiv. rewrite Rmult_0_r, Rmult_0_l. lra. }
  assert (C1 : 1 <= IZR c) by (apply IZR_le; lia).
  assert (N1 : 1 <= IZR n) by (apply IZR_le; lia).
  assert (CN : IZR c <= IZR n) by (apply IZR_le; lia).
  assert (NB : IZR n <= bpow radix2 64) by (rewrite <- IZR_Zpower by lia; apply IZR_le; change (Z.pow radix2 64) with (2 ^ 64)%Z; lia).
  assert (B100 : bpow radix2 (-100) <= 1) by (change 1 with (bpow radix2 0); apply bpow_le; lia).
  rewrite (proj2 (double_of_Z_round c ltac:(lia))), (proj2 (double_of_Z_round n ltac:(lia))) in V.
  destruct (rel_round (IZR c) ltac:(lra)) as (e1 & H1 & E1).
  destruct (rel_round (IZR n) ltac:(lra)) as (e2 & H2 & E2).
  rewrite E1, E2 in V.
  assert (U : bpow radix2 (-53) <= 1 / 1024 / 1024 / 1024 / 1024 / 1024).
  { replace (1 / 1024 / 1024 / 1024 / 1024 / 1024) with (bpow radix2 (-50)); [apply bpow_le; lia|]. cbn. lra. }
  apply Rabs_le_inv in H1. apply Rabs_le_inv in H2.
  set (x := IZR c / IZR n) in *.
  assert (X0 : 0 < x) by (apply Rmult_lt_0_compat; [lra|apply Rinv_0_lt_compat; lra]).
  assert (X1 : x <= 1).
  { apply Rmult_le_reg_r with (IZR n); [lra|]. unfold x, Rdiv. rewrite Rmult_assoc, Rinv_l by lra. lra. }
  assert (XL : bpow radix2 (-64) <= x).
  { unfold x. apply Rmult_le_reg_r with (IZR n); [lra|]. unfold Rdiv. rewrite Rmult_assoc, Rinv_l, Rmult_1_r by lra.
    apply Rle_trans with 1; [|exact C1]. apply Rle_trans with (bpow radix2 (-64) * bpow radix2 64).
    - apply Rmult_le_compat_l; [apply bpow_ge_0|exact NB].
    - rewrite <- bpow_plus. right. reflexivity. }
  set (f := (1 + e1) / (1 + e2)) in *.
  assert (F : 1 - 3 * bpow radix2 (-53) <= f <= 1 + 3 * bpow radix2 (-53)).
  { assert (P2 : 0 < 1 + e2) by lra. assert (U0 : 0 <= bpow radix2 (-53)) by apply bpow_ge_0.
    unfold f. split; apply Rmult_le_reg_r with (1 + e2); try exact P2; unfold Rdiv; rewrite Rmult_assoc, Rinv_l, Rmult_1_r by lra; nra. }
  replace (IZR c * (1 + e1) / (IZR n * (1 + e2))) with (x * f) in V by (unfold x, f; field; split; lra).
  destruct (rel_round (x * f)) as (e3 & H3 & E3).
  { apply Rle_trans with (bpow radix2 (-65)); [apply bpow_le; lia|].
    apply Rle_trans with (bpow radix2 (-64) * / 2).
    - right. change (/ 2) with (bpow radix2 (-1)). rewrite <- bpow_plus. reflexivity.
    - apply Rmult_le_compat; [apply bpow_ge_0|lra|exact XL|lra]. }
  rewrite E3 in V. apply Rabs_le_inv in H3.
  destruct (rel_round (x * f * (1 + e3) * 100)) as (e4 & H4 & E4).
  { apply Rle_trans with (bpow radix2 (-64) * / 2 * / 2 * 1).
    - apply Rle_trans with (bpow radix2 (-66)); [apply bpow_le; lia|].
      right. change (/ 2) with (bpow radix2 (-1)). rewrite Rmult_1_r, <- !bpow_plus. reflexivity.
    - assert (0 < bpow radix2 (-64)) by apply bpow_gt_0.
      repeat apply Rmult_le_compat; try lra; repeat apply Rmult_le_pos; lra. }
  rewrite E4 in V. apply Rabs_le_inv in H4.
  set (u := bpow radix2 (-53)) in *.
  assert (U0 : 0 < u) by apply bpow_gt_0.
  set (g := f * (1 + e3) * (1 + e4)).
  assert (G : 1 - 6 * u <= g <= 1 + 6 * u).
  { assert (G1 : 1 - 4 * u - 6 * (u * u) <= f * (1 + e3) <= 1 + 4 * u + 6 * (u * u)).
    { split; nra. }
    assert (u * u <= u / 1000000) by nra.
    unfold g. split; nra. }
  replace (x * f * (1 + e3) * 100 * (1 + e4)) with (100 * x * g) in V by (unfold g; ring).
  assert (G0 : 0 <= g) by lra. clearbody g.
  assert (V0 : 0 <= 100 * x * g) by (apply Rmult_le_pos; [lra|exact G0]).
  rewrite Ztrunc_floor in V by exact V0.
  pose proof (Zfloor_lb (100 * x * g)) as L1. pose proof (Zfloor_ub (100 * x * g)) as L2.
  rewrite <- V in L1, L2.
  replace (100 * IZR c / IZR n) with (100 * x) by (unfold x; field; lra).
  assert (W : 600 * u <= bpow radix2 (-40)).
  { apply Rle_trans with (bpow radix2 10 * u); [apply Rmult_le_compat_r; [lra|]; cbn; lra|].
    unfold u. rewrite <- bpow_plus. apply bpow_le. lia. }
  assert (D1 : x * (g - 1) <= x * (6 * u)) by (apply Rmult_le_compat_l; lra).
  assert (D2 : x * - (6 * u) <= x * (g - 1)) by (apply Rmult_le_compat_l; lra).
  assert (D3 : x * (6 * u) <= 1 * (6 * u)) by (apply Rmult_le_compat_r; lra).
  assert (D : - (600 * u) <= 100 * x * g - 100 * x <= 600 * u) by (split; lra).
  split; lra.
Qed.
