From Coq Require Import List ZArith Reals Lia Lra Permutation Bool.
From Flocq Require Import Core.
From Verif Require Import Base Num Photo_Model Composite_Spec.
Import ListNotations.
Open Scope R_scope.

Lemma num_not_nan r : Num r <> NaN.
Proof. discriminate. Qed.
#[local] Hint Resolve num_not_nan : core.

Lemma answers_clean_answers im o : answers_clean im o -> answers im o.
Proof.
  intros H d Hd. specialize (H d Hd). destruct o; [exact H|]. exists d; auto.
Qed.
Lemma Forall2_clean ims os : Forall2 answers_clean ims os -> Forall2 answers ims os.
Proof. induction 1; constructor; auto using answers_clean_answers. Qed.

(** ** first_read *)

Lemma first_read_hit ims : forall os k r d,
  Forall2 answers ims os -> d <> NaN ->
  nth_error os k = Some (Some r) ->
  (forall j, (j < k)%nat -> nth_error os j = Some None) ->
  first_read ims d = Ok (1%Z, Num r).
Proof.
  induction ims as [|im ims IH]; intros os k r d F Hd Hk Hj; inversion F as [|? o ? os' A1 A2]; subst.
  - destruct k; discriminate.
  - specialize (A1 d Hd). cbn [first_read]. destruct k as [|k].
    + cbn in Hk. injection Hk as ->. rewrite A1. reflexivity.
    + pose proof (Hj O ltac:(lia)) as E. cbn in E. injection E as ->.
      destruct A1 as (d' & E & Hd'). rewrite E. cbn [bind].
      apply (IH os' k r d' A2 Hd' Hk). intros j Hjk. apply (Hj (S j)). lia.
Qed.

Lemma first_read_miss ims : forall os d,
  Forall2 answers ims os -> d <> NaN -> (forall o, In o os -> o = None) ->
  exists d', first_read ims d = Ok (0%Z, d').
Proof.
  induction ims as [|im ims IH]; intros os d F Hd Ho; inversion F as [|? o ? os' A1 A2]; subst.
  - exists d. reflexivity.
  - specialize (A1 d Hd). cbn [first_read]. rewrite (Ho o (or_introl eq_refl)) in A1.
    destruct A1 as (d' & E & Hd'). rewrite E. cbn [bind].
    apply (IH os' d' A2 Hd'). intros o' Hi. apply Ho. now right.
Qed.

(** ** unweighted average *)

Lemma sum_loop_spec ims : forall os d s n,
  Forall2 answers ims os -> d <> NaN ->
  exists d', d' <> NaN /\
    sum_loop same_num ims d (Num s : ar_num) n =
    Ok (d', Num (s + total (contributions os)), (n + Z.of_nat (length (contributions os)))%Z).
Proof.
  induction ims as [|im ims IH]; intros os d s n F Hd; inversion F as [|? o ? os' A1 A2]; subst.
  - exists d. split; [exact Hd|]. cbn. rewrite Rplus_0_r, Z.add_0_r. reflexivity.
  - specialize (A1 d Hd). cbn [sum_loop]. destruct o as [r|].
    + rewrite A1. cbn [bind].
      change (a_add (w_arith same_num) (Num s) (w_widen same_num (Num r))) with (Num (s + r)).
      destruct (IH os' (Num r) (s + r) (n + 1)%Z A2 (num_not_nan r)) as (d' & Hd' & E).
      exists d'. split; [exact Hd'|]. rewrite E. cbn [contributions total fold_right length].
      f_equal. f_equal; [f_equal; f_equal; unfold total; ring|lia].
    + destruct A1 as (d1 & E1 & Hd1). rewrite E1. cbn [bind].
      destruct (IH os' d1 s n A2 Hd1) as (d' & Hd' & E). exists d'. auto.
Qed.

Lemma unweighted_mean ims os d :
  Forall2 answers ims os -> d <> NaN ->
  exists d', unweighted_average same_num ims d = Ok (Z.of_nat (length (contributions os)), d') /\
    ((2 <= length (contributions os))%nat -> d' = Num (mean (contributions os))).
Proof.
  intros F Hd. unfold unweighted_average.
  change (a_of_Z (w_arith same_num) 0) with (Num 0).
  destruct (sum_loop_spec ims os d 0 0%Z F Hd) as (d' & Hd' & E). rewrite E. cbn [bind].
  rewrite Z.add_0_l, Rplus_0_l. eexists. split; [reflexivity|]. intros H.
  replace (1 <? Z.of_nat (length (contributions os)))%Z with true by (symmetry; apply Z.ltb_lt; lia).
  change (w_narrow same_num (a_div (w_arith same_num) (Num (total (contributions os))) (a_of_Z (w_arith same_num) (Z.of_nat (length (contributions os))))))
    with (num_div (Num (total (contributions os))) (Num (IZR (Z.of_nat (length (contributions os)))))).
  unfold num_div, num2, mean. rewrite <- INR_IZR_INZ.
  assert (INR (length (contributions os)) <> 0) by (apply not_0_INR; lia).
  now rewrite Req_bool_false by assumption.
Qed.

Lemma total_app a b : total (a ++ b) = total a + total b.
Proof. induction a as [|x a IH]; cbn; [unfold total; ring|]. fold (total (a ++ b)). rewrite IH. unfold total; ring. Qed.

Lemma total_perm l l' : Permutation l l' -> total l = total l'.
Proof.
  induction 1; cbn; auto.
  - unfold total in *. lra.
  - unfold total. lra.
  - congruence.
Qed.

Lemma total_bounds l lo hi : (forall x, In x l -> lo <= x <= hi) ->
  lo * INR (length l) <= total l <= hi * INR (length l).
Proof.
  induction l as [|x l IH]; intros H.
  - cbn. lra.
  - assert (B : lo <= x <= hi) by (apply H; now left).
    assert (IH' : lo * INR (length l) <= total l <= hi * INR (length l)).
    { apply IH. intros y Hy. apply H. now right. }
    change (length (x :: l)) with (S (length l)). rewrite S_INR.
    change (total (x :: l)) with (x + total l). lra.
Qed.

Lemma mean_bounds l lo hi : l <> [] -> (forall x, In x l -> lo <= x <= hi) -> lo <= mean l <= hi.
Proof.
  intros Hl H. pose proof (total_bounds l lo hi H) as [B1 B2]. unfold mean.
  assert (P : 0 < INR (length l)) by (apply lt_0_INR; destruct l; [congruence|cbn; lia]).
  split; [apply Rmult_le_reg_r with (INR (length l))|apply Rmult_le_reg_r with (INR (length l))]; auto;
    unfold Rdiv; rewrite Rmult_assoc, Rinv_l by lra; lra.
Qed.

Lemma mean_perm l l' : Permutation l l' -> mean l = mean l'.
Proof. intros P. unfold mean. now rewrite (total_perm _ _ P), (Permutation_length P). Qed.

Lemma contributions_perm {B} (os os' : list (option B)) :
  Permutation os os' -> Permutation (contributions os) (contributions os').
Proof.
  induction 1 as [|o os os' P IH|o1 o2 os|]; auto.
  - destruct o; cbn; auto.
  - destruct o1, o2; cbn; auto using perm_swap.
  - eauto using Permutation_trans.
Qed.

Lemma unweighted_facts ims os d :
  Forall2 answers ims os -> d <> NaN -> (2 <= length (contributions os))%nat ->
  unweighted_average same_num ims d = Ok (Z.of_nat (length (contributions os)), Num (mean (contributions os))) /\
  (forall lo hi, (forall x, In x (contributions os) -> lo <= x <= hi) ->
     lo <= mean (contributions os) <= hi) /\
  (forall ims' os' d', Forall2 answers ims' os' -> d' <> NaN ->
     Permutation (contributions os) (contributions os') ->
     unweighted_average same_num ims' d' = unweighted_average same_num ims d).
Proof.
  intros F Hd H. destruct (unweighted_mean ims os d F Hd) as (r & E & Hr).
  rewrite (Hr H) in E. split; [exact E|]. split.
  - intros lo hi B. apply mean_bounds; [|exact B]. destruct (contributions os); [cbn in H; lia|discriminate].
  - intros ims' os' d' F' Hd' P.
    destruct (unweighted_mean ims' os' d' F' Hd') as (r' & E' & Hr').
    rewrite E, E', (Permutation_length P), (mean_perm _ _ P).
    rewrite Hr'; [reflexivity|]. rewrite <- (Permutation_length P). exact H.
Qed.

(** ** weighted average *)

Lemma wsum_loop_spec ims : forall os d s w n,
  Forall2 wanswers ims os -> d <> NaN ->
  exists d', d' <> NaN /\
    wsum_loop same_num ims d (Num s : ar_num) (Num w : ar_num) n =
    Ok (d', Num (s + wtotal (contributions os)), Num (w + weights (contributions os)),
        (n + Z.of_nat (length (contributions os)))%Z).
Proof.
  induction ims as [|im ims IH]; intros os d s w n F Hd; inversion F as [|? o ? os' A1 A2]; subst.
  - exists d. split; [exact Hd|]. cbn. rewrite !Rplus_0_r, Z.add_0_r. reflexivity.
  - specialize (A1 d (Num 1) Hd). cbn [wsum_loop].
    change (a_of_Z ar_num 1) with (Num 1). destruct o as [[r wt]|].
    + rewrite A1. cbn [bind].
      change (a_add (w_arith same_num) (Num s) (w_widen same_num (a_mul ar_num (Num wt) (Num r)))) with (Num (s + wt * r)).
      change (a_add (w_arith same_num) (Num w) (w_widen same_num (Num wt))) with (Num (w + wt)).
      destruct (IH os' (Num r) (s + wt * r) (w + wt) (n + 1)%Z A2 (num_not_nan r)) as (d' & Hd' & E).
      exists d'. split; [exact Hd'|]. rewrite E.
      unfold wtotal, weights. cbn [contributions total fold_right length map fst snd].
      f_equal. f_equal; [f_equal; [f_equal|]; f_equal; unfold total; ring|lia].
    + destruct A1 as (d1 & w1 & E1 & Hd1). rewrite E1. cbn [bind].
      destruct (IH os' d1 s w n A2 Hd1) as (d' & Hd' & E). exists d'. auto.
Qed.

Lemma weighted_mean ims os d :
  Forall2 wanswers ims os -> d <> NaN ->
  exists d', weighted_average same_num ims d = Ok (Z.of_nat (length (contributions os)), d') /\
    ((2 <= length (contributions os))%nat -> 0 < weights (contributions os) ->
     d' = Num (wmean (contributions os))).
Proof.
  intros F Hd. unfold weighted_average.
  change (a_of_Z (w_arith same_num) 0) with (Num 0).
  destruct (wsum_loop_spec ims os d 0 0 0%Z F Hd) as (d' & Hd' & E). rewrite E. cbn [bind].
  rewrite Z.add_0_l, !Rplus_0_l. eexists. split; [reflexivity|]. intros H Hw.
  replace (1 <? Z.of_nat (length (contributions os)))%Z with true by (symmetry; apply Z.ltb_lt; lia).
  cbn [w_arith as_wide w_narrow a_lt a_of_Z a_div ar_num num_lt andb]. rewrite Rlt_bool_true by exact Hw.
  unfold num_div, num2, wmean.
  now rewrite Req_bool_false by lra.
Qed.

Lemma wtotal_bounds l lo hi :
  (forall p, In p l -> 0 <= snd p /\ lo <= fst p <= hi) ->
  lo * weights l <= wtotal l <= hi * weights l.
Proof.
  unfold wtotal, weights. induction l as [|[x w] l IH]; intros H.
  - cbn. lra.
  - destruct (H (x, w) (or_introl eq_refl)) as [Hw B]. cbn [fst snd] in *.
    assert (IH' := IH (fun p Hp => H p (or_intror Hp))).
    cbn [map fst snd total fold_right].
    change (fold_right Rplus 0 (map (fun p => snd p * fst p) l)) with (total (map (fun p => snd p * fst p) l)).
    change (fold_right Rplus 0 (map snd l)) with (total (map snd l)).
    nra.
Qed.

Lemma weighted_facts ims os d :
  Forall2 wanswers ims os -> d <> NaN -> (2 <= length (contributions os))%nat ->
  0 < weights (contributions os) ->
  weighted_average same_num ims d = Ok (Z.of_nat (length (contributions os)), Num (wmean (contributions os))) /\
  (forall lo hi, (forall p, In p (contributions os) -> 0 <= snd p /\ lo <= fst p <= hi) ->
     lo <= wmean (contributions os) <= hi).
Proof.
  intros F Hd H Hw. destruct (weighted_mean ims os d F Hd) as (r & E & Hr).
  rewrite (Hr H Hw) in E. split; [exact E|].
  intros lo hi B. pose proof (wtotal_bounds _ lo hi B) as [B1 B2]. unfold wmean.
  split; (apply Rmult_le_reg_r with (weights (contributions os)); [exact Hw|]);
    unfold Rdiv; rewrite Rmult_assoc, Rinv_l by lra; lra.
Qed.

(** Total weight zero: the datum of the last contributor. *)
Lemma weighted_zero : exists (ims : list (wimage ar_num)) os,
  Forall2 wanswers_clean ims os /\ length (contributions os) = 2%nat /\
  weighted_average same_num ims (Num 0) = Ok (2%Z, Num 7) /\
  contributions os = [(5, 0); (7, 0)].
Proof.
  exists [fun _ _ => Ok (true, Num 5, Num 0); fun _ _ => Ok (true, Num 7, Num 0)],
         [Some (5, 0); Some (7, 0)].
  split; [|split; [reflexivity|split; [|reflexivity]]].
  - constructor; [intros d w _; reflexivity|constructor; [intros d w _; reflexivity|constructor]].
  - unfold weighted_average. cbn. rewrite Rlt_bool_false by lra. reflexivity.
Qed.

(** ** One contributor *)

Lemma sum_loop_clean_none ims : forall os (d s : num) n,
  Forall2 answers_clean ims os -> d <> NaN -> contributions os = [] ->
  sum_loop same_num ims d (s : ar_num) n = Ok (d, s, n).
Proof.
  induction ims as [|im ims IH]; intros os d s n F Hd C; inversion F as [|? o ? os' A1 A2]; subst; [reflexivity|].
  specialize (A1 d Hd). destruct o as [r|]; [discriminate|].
  cbn [sum_loop]. rewrite A1. cbn [bind]. now apply (IH os').
Qed.

Lemma sum_loop_clean_one ims : forall os (d s : num) n r,
  Forall2 answers_clean ims os -> d <> NaN -> contributions os = [r] ->
  exists s', sum_loop same_num ims d (s : ar_num) n = Ok (Num r, s', (n + 1)%Z).
Proof.
  induction ims as [|im ims IH]; intros os d s n r F Hd C; inversion F as [|? o ? os' A1 A2]; subst; [discriminate|].
  specialize (A1 d Hd). cbn [sum_loop]. rewrite A1. destruct o as [x|]; cbn [bind].
  - cbn in C. injection C as -> C.
    rewrite (sum_loop_clean_none ims os' (Num r) _ _ A2 (num_not_nan r) C). eexists; reflexivity.
  - cbn in C. now apply (IH os').
Qed.

Lemma single_unweighted ims os d r :
  Forall2 answers_clean ims os -> d <> NaN -> contributions os = [r] ->
  unweighted_average same_num ims d = Ok (1%Z, Num r).
Proof.
  intros F Hd C. unfold unweighted_average.
  destruct (sum_loop_clean_one ims os d (a_of_Z (w_arith same_num) 0) 0%Z r F Hd C) as (s' & E).
  rewrite E. reflexivity.
Qed.

Lemma wsum_loop_clean_none ims : forall os (d s w : num) n,
  Forall2 wanswers_clean ims os -> d <> NaN -> contributions os = [] ->
  wsum_loop same_num ims d (s : ar_num) (w : ar_num) n = Ok (d, s, w, n).
Proof.
  induction ims as [|im ims IH]; intros os d s w n F Hd C; inversion F as [|? o ? os' A1 A2]; subst; [reflexivity|].
  specialize (A1 d (Num 1) Hd). destruct o as [[r wt]|]; [discriminate|].
  destruct A1 as (w' & A1). cbn [wsum_loop]. change (a_of_Z ar_num 1) with (Num 1). rewrite A1.
  cbn [bind]. now apply (IH os').
Qed.

Lemma wsum_loop_clean_one ims : forall os (d s w : num) n r wt,
  Forall2 wanswers_clean ims os -> d <> NaN -> contributions os = [(r, wt)] ->
  exists s' w', wsum_loop same_num ims d (s : ar_num) (w : ar_num) n = Ok (Num r, s', w', (n + 1)%Z).
Proof.
  induction ims as [|im ims IH]; intros os d s w n r wt F Hd C; inversion F as [|? o ? os' A1 A2]; subst; [discriminate|].
  specialize (A1 d (Num 1) Hd). cbn [wsum_loop]. change (a_of_Z ar_num 1) with (Num 1).
  destruct o as [[x xw]|].
  - rewrite A1. cbn [bind]. cbn in C. injection C as -> -> C.
    rewrite (wsum_loop_clean_none ims os' (Num r) _ _ _ A2 (num_not_nan r) C). do 2 eexists; reflexivity.
  - destruct A1 as (w' & A1). rewrite A1. cbn [bind]. cbn in C. now apply (IH os' d s w n r wt).
Qed.

Lemma single_weighted ims os d r wt :
  Forall2 wanswers_clean ims os -> d <> NaN -> contributions os = [(r, wt)] ->
  weighted_average same_num ims d = Ok (1%Z, Num r).
Proof.
  intros F Hd C. unfold weighted_average.
  destruct (wsum_loop_clean_one ims os d (a_of_Z (w_arith same_num) 0) (a_of_Z (w_arith same_num) 0) 0%Z r wt F Hd C) as (s' & w' & E).
  rewrite E. reflexivity.
Qed.

Lemma contributions_one {B} (os : list (option B)) r : contributions os = [r] ->
  exists k, nth_error os k = Some (Some r) /\ forall j, (j < k)%nat -> nth_error os j = Some None.
Proof.
  induction os as [|[x|] os IH]; cbn; intros C; [discriminate| |].
  - injection C as -> C. exists O. split; [reflexivity|]. intros j Hj; lia.
  - destruct (IH C) as (k & E & Hk). exists (S k). split; [exact E|].
    intros [|j] Hj; [reflexivity|]. apply Hk. lia.
Qed.

Lemma single_first ims os d r :
  Forall2 answers ims os -> d <> NaN -> contributions os = [r] ->
  first_read ims d = Ok (1%Z, Num r).
Proof.
  intros F Hd C. destruct (contributions_one os r C) as (k & E & Hk).
  eapply first_read_hit; eauto.
Qed.

Lemma single_contributor ims wims os wos d r wt :
  d <> NaN ->
  Forall2 answers_clean ims os -> contributions os = [r] ->
  Forall2 wanswers_clean wims wos -> contributions wos = [(r, wt)] ->
  first_read ims d = Ok (1%Z, Num r) /\
  unweighted_average same_num ims d = Ok (1%Z, Num r) /\
  weighted_average same_num wims d = Ok (1%Z, Num r).
Proof.
  intros Hd F C WF WC. split; [|split].
  - eapply single_first; eauto using Forall2_clean.
  - eapply single_unweighted; eauto.
  - eapply single_weighted; eauto.
Qed.

(** A mosaic has data exactly where an image contributes. *)
Lemma contributions_first {B} (os : list (option B)) :
  match contributions os with
  | [] => forall o, In o os -> o = None
  | r :: _ => exists k, nth_error os k = Some (Some r) /\ forall j, (j < k)%nat -> nth_error os j = Some None
  end.
Proof.
  induction os as [|[b|] os IH]; cbn [contributions].
  - intros o [].
  - exists 0%nat. split; [reflexivity|]. lia.
  - destruct (contributions os) as [|r l].
    + intros o [<-|H]; auto.
    + destruct IH as (k & E & H). exists (S k). split; [exact E|].
      intros [|j] Hj; [reflexivity|]. cbn. apply H. lia.
Qed.

Lemma mosaic_has_data ims os wims wos d :
  d <> NaN -> Forall2 answers ims os -> Forall2 wanswers wims wos ->
  (exists v, mosaic_read (first_read ims) d = Ok (negb (Nat.eqb (length (contributions os)) 0), v)) /\
  (exists v, mosaic_read (unweighted_average same_num ims) d = Ok (negb (Nat.eqb (length (contributions os)) 0), v)) /\
  (exists v, mosaic_read (weighted_average same_num wims) d = Ok (negb (Nat.eqb (length (contributions wos)) 0), v)).
Proof.
  intros Hd F G.
  assert (L : forall n, (0 <? Z.of_nat n)%Z = negb (Nat.eqb n 0)) by (intros [|n]; reflexivity).
  split; [|split].
  - unfold mosaic_read. pose proof (contributions_first os) as C. destruct (contributions os) as [|r l].
    + destruct (first_read_miss ims os d F Hd C) as (d' & ->). exists d'. reflexivity.
    + destruct C as (k & E & H). rewrite (first_read_hit ims os k r d F Hd E H). exists (Num r). reflexivity.
  - unfold mosaic_read. destruct (unweighted_mean ims os d F Hd) as (d' & -> & _). exists d'.
    cbn [bind fst snd]. now rewrite L.
  - unfold mosaic_read, weighted_average. change (a_of_Z (w_arith same_num) 0) with (Num 0).
    destruct (wsum_loop_spec wims wos d 0 0 0%Z G Hd) as (d' & Hd' & ->). cbn [bind fst snd]. eexists.
    now rewrite Z.add_0_l, L.
Qed.
