From Coq Require Import Reals Machin Ratan QArith Qreals Qpower Lra Lia ZArith.
Open Scope R_scope.
(* 1/3^(2n+1), 1/7^(2n+1) as rationals *)
Definition q_term (n : nat) : Q :=
  let k := Z.of_nat (2 * n + 1) in
  Qred ((2 * / inject_Z (3 ^ k) + / inject_Z (7 ^ k)) / inject_Z k)%Q.
Fixpoint q_sum (n : nat) : Q :=
  let s := if Nat.even n then q_term n else Qopp (q_term n) in
  match n with O => s | S m => Qred (q_sum m + s)%Q end.
Lemma pow_inv_Q a k : (0 < a)%Z -> Q2R (/ inject_Z (a ^ Z.of_nat k)) = (/ IZR a) ^ k.
Proof.
  intros Ha. rewrite Q2R_inv.
  - unfold Q2R, inject_Z. cbn [Qnum Qden]. rewrite Rinv_1, Rmult_1_r. rewrite pow_inv by (apply not_0_IZR; lia). f_equal.
    now rewrite <- pow_IZR.
  - intros H. unfold Qeq, inject_Z in H. cbn in H. assert (0 < a ^ Z.of_nat k)%Z by (apply Z.pow_pos_nonneg; lia). lia.
Qed.
Lemma q_term_value n : Q2R (q_term n) = PI_2_3_7_tg n.
Proof.
  unfold q_term. rewrite (Qeq_eqR _ _ (Qred_correct _)). unfold PI_2_3_7_tg, Ratan_seq.
  set (k := (2 * n + 1)%nat). assert (K : INR k <> 0) by (apply not_0_INR; unfold k; lia).
  unfold Qdiv. rewrite Q2R_mult, Q2R_plus, Q2R_mult, !pow_inv_Q by lia.
  rewrite Q2R_inv. 2: { intros H. unfold Qeq, inject_Z in H. cbn in H. unfold k in H. lia. }
  replace (Q2R (inject_Z (Z.of_nat k))) with (INR k).
  2: { unfold Q2R, inject_Z. cbn [Qnum Qden]. rewrite INR_IZR_INZ. lra. }
  replace (Q2R 2) with 2 by (unfold Q2R; cbn [Qnum Qden]; lra). unfold Rdiv. ring.
Qed.
Lemma q_sum_value n : Q2R (q_sum n) = sum_f_R0 (tg_alt PI_2_3_7_tg) n.
Proof.
  assert (T : forall n, Q2R (if Nat.even n then q_term n else Qopp (q_term n)) = tg_alt PI_2_3_7_tg n).
  { intros k. unfold tg_alt. destruct (Nat.even k) eqn:E.
    - apply Nat.even_spec in E. destruct E as [j ->]. rewrite pow_1_even, q_term_value. ring.
    - assert (O : Nat.odd k = true) by (rewrite <- Nat.negb_even, E; reflexivity). apply Nat.odd_spec in O. destruct O as [j ->].
      replace (2 * j + 1)%nat with (S (2 * j)) by lia. rewrite pow_1_odd, Q2R_opp, q_term_value. ring. }
  induction n as [|n IH]; cbn [q_sum sum_f_R0].
  - apply T.
  - rewrite (Qeq_eqR _ _ (Qred_correct _)), Q2R_plus, IH, T. reflexivity.
Qed.
Lemma pi_between : 3.14159265358979323 <= PI <= 3.14159265358979324.
Proof.
  pose proof (PI_2_3_7_ineq 9) as [L U]. rewrite <- q_sum_value in L, U.
  assert (A : (314159265358979323 # 400000000000000000 <= q_sum (S (2 * 9)))%Q) by (vm_compute; discriminate).
  assert (B : (q_sum (2 * 9) <= 314159265358979324 # 400000000000000000)%Q) by (vm_compute; discriminate).
  apply Qle_Rle in A, B. unfold Q2R at 1 in A. unfold Q2R at 2 in B. cbn [Qnum Qden] in A, B. lra.
Qed.
