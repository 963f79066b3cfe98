(** Lemmas for C33, C34 and C75. *)
From Coq Require Import List ZArith Reals Lra Lia Bool.
From Flocq Require Import Core.
From Verif Require Import Base Num LinAlg_Model Maths_Model Maths_Spec.
Import ListNotations.
Open Scope R_scope.

(** ** Sums *)

Lemma sum_to_ext n f g : (forall i, (i < n)%nat -> f i = g i) -> sum_to n f = sum_to n g.
Proof. induction n as [|n IH]; intros H; cbn; [reflexivity|]. rewrite IH, H; auto. Qed.

Lemma sum_to_plus n f g : sum_to n (fun i => f i + g i) = sum_to n f + sum_to n g.
Proof. induction n as [|n IH]; cbn; [ring|]. rewrite IH. ring. Qed.

Lemma sum_to_scale n f x : sum_to n (fun i => f i * x) = sum_to n f * x.
Proof. induction n as [|n IH]; cbn; [ring|]. rewrite IH. ring. Qed.

Lemma sum_to_swap n m f : sum_to n (fun i => sum_to m (fun j => f i j)) = sum_to m (fun j => sum_to n (fun i => f i j)).
Proof.
  induction n as [|n IH]; cbn.
  - induction m as [|m IHm]; cbn; [reflexivity|]. rewrite <- IHm. ring.
  - rewrite IH, <- sum_to_plus. reflexivity.
Qed.

Lemma accumulate_sum N f : accumulate N f = sum_to N f.
Proof.
  unfold accumulate. induction N as [|N IH]; [reflexivity|].
  rewrite seq_S, fold_left_app, IH. reflexivity.
Qed.

Lemma sum_to_shift n f : sum_to (S n) f = f 0%nat + sum_to n (fun i => f (S i)).
Proof. induction n as [|n IH]; [cbn; ring|]. cbn [sum_to] in *. rewrite IH. ring. Qed.

Lemma fold_shift l : forall acc : R,
  fold_left (fun s p => s + fst p * snd p) l acc = acc + fold_left (fun s (p : R * R) => s + fst p * snd p) l 0.
Proof.
  induction l as [|p l IH]; intros acc; cbn [fold_left]; [ring|].
  rewrite IH, (IH (0 + _)). ring.
Qed.

Lemma dot_product_inner a : forall M b, is_vec M a -> is_vec M b -> dot_product a b = inner M a b.
Proof.
  unfold is_vec, dot_product, inner.
  induction a as [|x a IH]; intros M b Ha Hb.
  - cbn in Ha; subst M. reflexivity.
  - destruct b as [|y b]; cbn in Ha, Hb; [lia|]. destruct M as [|M]; [lia|].
    rewrite sum_to_shift. cbn [combine fold_left]. rewrite fold_shift.
    rewrite (IH M b) by lia. cbn [fst snd]. unfold vget. cbn [nth]. ring.
Qed.

(** ** Elements *)

Lemma nth_map_seq {A} (g : nat -> A) n i d : (i < n)%nat -> nth i (map g (seq 0 n)) d = g i.
Proof.
  intros H. rewrite nth_indep with (d' := g 0%nat) by (now rewrite map_length, seq_length).
  rewrite map_nth, seq_nth by exact H. reflexivity.
Qed.

Lemma map2_length f a b M : is_vec M a -> is_vec M b -> is_vec M (map2 f a b).
Proof. unfold is_vec, map2. rewrite map_length, combine_length. lia. Qed.

Lemma map2_get f a b M i : is_vec M a -> is_vec M b -> (i < M)%nat ->
  vget (map2 f a b) i = f (vget a i) (vget b i).
Proof.
  unfold is_vec, map2, vget. intros Ha Hb Hi.
  rewrite nth_indep with (d' := f (fst (0, 0)) (snd (0, 0))) by (rewrite map_length, combine_length; lia).
  rewrite (map_nth (fun p => f (fst p) (snd p))), combine_nth by lia. reflexivity.
Qed.

Lemma vscale_get v x i : vget (vscale v x) i = vget v i * x.
Proof.
  unfold vget, vscale. replace 0 with (0 * x) at 1 by ring.
  rewrite (map_nth (fun e => e * x)). reflexivity.
Qed.

Lemma mat_row M N m r : is_mat M N m -> (r < M)%nat -> is_vec N (nth r m []).
Proof. intros [HM HN] Hr. apply HN, nth_In. lia. Qed.

Lemma map2m_row f a b M N r : is_mat M N a -> is_mat M N b -> (r < M)%nat ->
  nth r (map2m f a b) [] = f (nth r a []) (nth r b []).
Proof.
  intros [Ha _] [Hb _] Hr. unfold map2m.
  rewrite nth_indep with (d' := f (fst (@nil R, @nil R)) (snd (@nil R, @nil R))) by (rewrite map_length, combine_length; lia).
  rewrite (map_nth (fun p => f (fst p) (snd p))), combine_nth by lia. reflexivity.
Qed.

Lemma map2m_get f a b M N r c : is_mat M N a -> is_mat M N b -> (r < M)%nat -> (c < N)%nat ->
  mget (map2m (map2 f) a b) r c = f (mget a r c) (mget b r c).
Proof.
  intros Ha Hb Hr Hc. unfold mget. erewrite map2m_row by eauto.
  eapply map2_get; eauto using mat_row.
Qed.

Lemma map2m_mat f a b M N : is_mat M N a -> is_mat M N b -> is_mat M N (map2m (map2 f) a b).
Proof.
  intros [Ha Ha'] [Hb Hb']. split.
  - unfold map2m. rewrite map_length, combine_length. lia.
  - intros r Hr. unfold map2m in Hr. apply in_map_iff in Hr as ([p q] & <- & Hin).
    apply map2_length; [apply Ha'; eapply in_combine_l; eauto|apply Hb'; eapply in_combine_r; eauto].
Qed.

Lemma mscale_get m x r c : mget (mscale m x) r c = mget m r c * x.
Proof.
  unfold mget, mscale. change (@nil R) with (vscale [] x) at 1.
  rewrite (map_nth (fun r => vscale r x)). apply vscale_get.
Qed.

Lemma build_get (g : nat -> nat -> R) M N r c : (r < M)%nat -> (c < N)%nat ->
  mget (map (fun m => map (g m) (seq 0 N)) (seq 0 M)) r c = g r c.
Proof.
  intros Hr Hc. unfold mget, vget. rewrite nth_map_seq by exact Hr. now rewrite nth_map_seq.
Qed.

Lemma build_mat (g : nat -> nat -> R) M N : is_mat M N (map (fun m => map (g m) (seq 0 N)) (seq 0 M)).
Proof.
  split; [now rewrite map_length, seq_length|].
  intros r Hr. apply in_map_iff in Hr as (k & <- & _). now rewrite map_length, seq_length.
Qed.

Lemma transpose_get M N m r c : (r < M)%nat -> (c < N)%nat ->
  mget (transpose M N m) c r = mget m r c.
Proof. intros Hr Hc. unfold transpose. now rewrite (build_get (fun c r => mget m r c)). Qed.

Lemma transpose_mat M N m : is_mat N M (transpose M N m).
Proof. apply (build_mat (fun c r => mget m r c)). Qed.

Lemma mmul_get M N K a b r c : (r < M)%nat -> (c < K)%nat ->
  mget (mmul M N K a b) r c = sum_to N (fun n => mget a r n * mget b n c).
Proof.
  intros Hr Hc. unfold mmul.
  rewrite (build_get (fun m r => accumulate N (fun n => mget a m n * mget b n r))) by assumption.
  apply accumulate_sum.
Qed.

Lemma mmul_mat M N K a b : is_mat M K (mmul M N K a b).
Proof. apply (build_mat (fun m r => accumulate N (fun n => mget a m n * mget b n r))). Qed.

Lemma mvmul_get M N a x r : (r < M)%nat -> vget (mvmul M N a x) r = sum_to N (fun n => mget a r n * vget x n).
Proof. intros Hr. unfold mvmul, vget at 1. rewrite nth_map_seq by exact Hr. apply accumulate_sum. Qed.

Lemma mvmul_vec M N a x : is_vec M (mvmul M N a x).
Proof. unfold is_vec, mvmul. now rewrite map_length, seq_length. Qed.

(** ** Equality from elements *)

Lemma vec_ext M a b : is_vec M a -> is_vec M b -> (forall i, (i < M)%nat -> vget a i = vget b i) -> a = b.
Proof.
  unfold is_vec, vget. intros Ha Hb H. apply nth_ext with (d := 0) (d' := 0); [congruence|].
  intros i Hi. apply H. lia.
Qed.

Lemma mat_ext M N a b : is_mat M N a -> is_mat M N b ->
  (forall r c, (r < M)%nat -> (c < N)%nat -> mget a r c = mget b r c) -> a = b.
Proof.
  intros Ha Hb H. apply nth_ext with (d := []) (d' := []); [destruct Ha, Hb; congruence|].
  intros r Hr. assert (r < M)%nat by (destruct Ha; lia).
  apply (vec_ext N); [now apply mat_row with M|now apply mat_row with M|]. intros c Hc. now apply H.
Qed.

(** ** Algebra *)

Lemma mmul_assoc_vec M N K a b v : mvmul M K (mmul M N K a b) v = mvmul M N a (mvmul N K b v).
Proof.
  apply (vec_ext M); [apply mvmul_vec..|]. intros i Hi. rewrite !mvmul_get by exact Hi.
  transitivity (sum_to K (fun k => sum_to N (fun n => mget a i n * mget b n k * vget v k))).
  { apply sum_to_ext. intros k Hk. rewrite mmul_get by assumption. now rewrite sum_to_scale. }
  rewrite sum_to_swap. apply sum_to_ext. intros n Hn. rewrite mvmul_get by exact Hn.
  rewrite Rmult_comm, <- sum_to_scale. apply sum_to_ext. intros; ring.
Qed.

Lemma mmul_assoc M N K L a b c : mmul M K L (mmul M N K a b) c = mmul M N L a (mmul N K L b c).
Proof.
  apply (mat_ext M L); [apply mmul_mat..|]. intros i j Hi Hj. rewrite !mmul_get by assumption.
  transitivity (sum_to K (fun k => sum_to N (fun n => mget a i n * mget b n k * mget c k j))).
  { apply sum_to_ext. intros k Hk. rewrite mmul_get by assumption. now rewrite sum_to_scale. }
  rewrite sum_to_swap. apply sum_to_ext. intros n Hn. rewrite mmul_get by assumption.
  rewrite Rmult_comm, <- sum_to_scale. apply sum_to_ext. intros; ring.
Qed.

Lemma transpose_mmul M N K a b :
  transpose M K (mmul M N K a b) = mmul K N M (transpose N K b) (transpose M N a).
Proof.
  apply (mat_ext K M); [apply transpose_mat|apply mmul_mat|]. intros i j Hi Hj.
  rewrite transpose_get, !mmul_get by assumption. apply sum_to_ext. intros n Hn.
  rewrite !transpose_get by assumption. ring.
Qed.

Lemma transpose_involutive M N m : is_mat M N m -> transpose N M (transpose M N m) = m.
Proof.
  intros Hm. apply (mat_ext M N); [apply transpose_mat|exact Hm|]. intros r c Hr Hc.
  now rewrite !transpose_get.
Qed.

Lemma mvmul_linear M N a u v x : is_vec N u -> is_vec N v ->
  mvmul M N a (vadd u v) = vadd (mvmul M N a u) (mvmul M N a v) /\
  mvmul M N a (vscale u x) = vscale (mvmul M N a u) x.
Proof.
  intros Hu Hv. split; apply (vec_ext M).
  - apply mvmul_vec.
  - apply map2_length; apply mvmul_vec.
  - intros i Hi. unfold vadd. rewrite (map2_get Rplus _ _ M) by (auto using mvmul_vec).
    rewrite !mvmul_get by assumption. rewrite <- sum_to_plus. apply sum_to_ext. intros n Hn.
    rewrite (map2_get Rplus _ _ N) by assumption. ring.
  - apply mvmul_vec.
  - unfold is_vec, vscale. rewrite map_length. apply mvmul_vec.
  - intros i Hi. rewrite vscale_get, !mvmul_get, <- sum_to_scale by assumption.
    apply sum_to_ext. intros n Hn. rewrite vscale_get. ring.
Qed.

Lemma vat_spec M v row : (0 <= row)%Z ->
  vat M v row = (if (row <? Z.of_nat M)%Z then Ok (vget v (Z.to_nat row)) else Throw out_of_range).
Proof.
  intros H. unfold vat. destruct (Z.leb_spec (Z.of_nat M) row), (Z.ltb_spec row (Z.of_nat M)); auto; lia.
Qed.

Lemma mat_at_spec M N m r c : (0 <= r)%Z -> (0 <= c)%Z ->
  mat_at M N m r c = (if ((r <? Z.of_nat M) && (c <? Z.of_nat N))%Z then Ok (mget m (Z.to_nat r) (Z.to_nat c)) else Throw out_of_range).
Proof.
  intros Hr Hc. unfold mat_at.
  destruct (Z.leb_spec (Z.of_nat M) r), (Z.ltb_spec r (Z.of_nat M)), (Z.leb_spec (Z.of_nat N) c), (Z.ltb_spec c (Z.of_nat N)); auto; lia.
Qed.

(** ** Magnitude *)

Lemma magnitude_norm v M : is_vec M v -> (M = 2 \/ M = 3)%nat -> magnitude v = Some (sqrt (inner M v v)).
Proof.
  unfold is_vec, inner. intros HM [->| ->].
  - destruct v as [|x [|y [|? ?]]]; try discriminate. cbn. do 2 f_equal. ring.
  - destruct v as [|x [|y [|z [|? ?]]]]; try discriminate. cbn. do 2 f_equal. ring.
Qed.

Lemma magnitude_one_refuted : magnitude [-1] <> Some (sqrt (inner 1 [-1] [-1])).
Proof. cbn. intros H. injection H as H. pose proof (sqrt_pos (0 + -1 * -1)). lra. Qed.

Lemma unit_vector_norm v M : is_vec M v -> (M = 2 \/ M = 3)%nat -> inner M v v <> 0 ->
  exists u, to_unit_vector v = Some u /\ is_vec M u /\ inner M u u = 1 /\
    exists k, 0 < k /\ v = vscale u k.
Proof.
  intros HM H2 N. unfold to_unit_vector. rewrite (magnitude_norm v M) by assumption.
  set (m := sqrt (inner M v v)).
  assert (P : 0 <= inner M v v).
  { unfold inner. induction M as [|M IH]; cbn in *; [lra|]. clear. 
    assert (Q : forall k, 0 <= sum_to k (fun i => vget v i * vget v i)) by (induction k; cbn; nra).
    specialize (Q M). nra. }
  assert (Pm : 0 < m) by (apply sqrt_lt_R0; lra).
  assert (Sq : m * m = inner M v v) by (apply sqrt_sqrt; exact P).
  exists (map (fun e => e / m) v). split; [reflexivity|].
  assert (E : map (fun e => e / m) v = vscale v (/ m)) by reflexivity.
  rewrite E. split; [unfold is_vec, vscale; now rewrite map_length|]. split.
  - unfold inner. rewrite (sum_to_ext _ _ (fun i => vget v i * vget v i * (/ m * / m))).
    2:{ intros i _. rewrite vscale_get. ring. }
    rewrite sum_to_scale. fold (inner M v v). rewrite <- Sq. field. lra.
  - exists m. split; [exact Pm|]. unfold vscale. rewrite map_map.
    rewrite <- (map_id v) at 1. apply map_ext. intros e. field. lra.
Qed.

(** ** Rotations *)

Ltac vec3 v H := destruct v as [|?x [|?y [|?z [|? ?]]]]; try discriminate H; clear H.

Lemma cons_eq {A} (x y : A) l k : x = y -> l = k -> x :: l = y :: k.
Proof. intros -> ->. reflexivity. Qed.

Ltac elements := repeat lazymatch goal with |- _ :: _ = _ :: _ => apply cons_eq | |- [] = [] => reflexivity end.

Lemma trig1 a : sin a * sin a + cos a * cos a = 1.
Proof. pose proof (sin2_cos2 a) as H. unfold Rsqr in H. exact H. Qed.

Lemma rot_inner a u v : is_vec 3 u -> is_vec 3 v ->
  inner 3 (RotX a u) (RotX a v) = inner 3 u v /\
  inner 3 (RotY a u) (RotY a v) = inner 3 u v /\
  inner 3 (RotZ a u) (RotZ a v) = inner 3 u v.
Proof.
  unfold is_vec. intros Hu Hv. vec3 u Hu. vec3 v Hv. pose proof (trig1 a) as T.
  assert (E : cos a * cos a = 1 - sin a * sin a) by lra. clear T.
  unfold inner, RotX, RotY, RotZ. cbn. repeat split; ring_simplify;
    replace (cos a ^ 2) with (1 - sin a * sin a) by (rewrite <- E; ring); ring.
Qed.

Lemma rot_undo a v : is_vec 3 v ->
  RotX (- a) (RotX a v) = v /\ RotY (- a) (RotY a v) = v /\ RotZ (- a) (RotZ a v) = v.
Proof.
  unfold is_vec. intros Hv. vec3 v Hv. pose proof (trig1 a) as T.
  assert (E : cos a * cos a = 1 - sin a * sin a) by lra. clear T.
  unfold RotX, RotY, RotZ. cbn. rewrite sin_neg, cos_neg.
  repeat split; elements; ring_simplify;
    try replace (cos a ^ 2) with (1 - sin a * sin a) by (rewrite <- E; ring); ring.
Qed.

Lemma rot_matrix a v : is_vec 3 v ->
  mvmul 3 3 (RotXMatrix a) v = RotX a v /\ mvmul 3 3 (RotYMatrix a) v = RotY a v /\
  mvmul 3 3 (RotZMatrix a) v = RotZ a v.
Proof.
  unfold is_vec. intros Hv. vec3 v Hv. unfold RotX, RotY, RotZ. cbn.
  repeat split; elements; ring.
Qed.

Lemma rot_orthogonal a :
  mmul 3 3 3 (transpose 3 3 (RotXMatrix a)) (RotXMatrix a) = identity3 /\
  mmul 3 3 3 (RotXMatrix a) (transpose 3 3 (RotXMatrix a)) = identity3 /\
  mmul 3 3 3 (transpose 3 3 (RotYMatrix a)) (RotYMatrix a) = identity3 /\
  mmul 3 3 3 (RotYMatrix a) (transpose 3 3 (RotYMatrix a)) = identity3 /\
  mmul 3 3 3 (transpose 3 3 (RotZMatrix a)) (RotZMatrix a) = identity3 /\
  mmul 3 3 3 (RotZMatrix a) (transpose 3 3 (RotZMatrix a)) = identity3.
Proof.
  pose proof (trig1 a) as T.
  assert (E : cos a * cos a = 1 - sin a * sin a) by lra. clear T.
  unfold identity3. cbn. repeat split; elements; ring_simplify;
    try replace (cos a ^ 2) with (1 - sin a * sin a) by (rewrite <- E; ring); ring.
Qed.

Lemma quarter_turns :
  RotX (PI / 2) [0; 0; 1] = [0; 1; 0] /\ RotY (PI / 2) [1; 0; 0] = [0; 0; 1] /\
  RotZ (PI / 2) [0; 1; 0] = [1; 0; 0].
Proof.
  unfold RotX, RotY, RotZ. cbn. rewrite sin_PI2, cos_PI2. repeat split; elements; ring.
Qed.
