(** Facts about the shared vocabulary of [Base]. *)
From Coq Require Import List ZArith Lia Bool Arith.
From Verif Require Import Base.
Import ListNotations.

Lemma upd_length {A} (l : list A) n a : length (upd l n a) = length l.
Proof. revert n; induction l as [|h t IH]; intros [|n]; simpl; auto. Qed.

Lemma upd_same {A} (l : list A) n a :
  (n < length l)%nat -> nth_error (upd l n a) n = Some a.
Proof.
  revert n; induction l as [|h t IH]; intros [|n] H; simpl in *; try lia; auto.
  apply IH; lia.
Qed.

Lemma upd_other {A} (l : list A) n m a :
  n <> m -> nth_error (upd l n a) m = nth_error l m.
Proof.
  revert n m; induction l as [|h t IH]; intros [|n] [|m] H; simpl; auto; try lia.
Qed.

Lemma nth_error_ext {A} (l1 l2 : list A) :
  (forall n, nth_error l1 n = nth_error l2 n) -> l1 = l2.
Proof.
  revert l2; induction l1 as [|a t IH]; intros [|b t2] H; auto.
  - specialize (H O); discriminate.
  - specialize (H O); discriminate.
  - f_equal.
    + specialize (H O); simpl in H; congruence.
    + apply IH; intro n; exact (H (S n)).
Qed.

Lemma nth_error_rev {A} (l : list A) n :
  (n < length l)%nat -> nth_error (rev l) n = nth_error l (length l - 1 - n).
Proof.
  intros H.
  destruct l as [|d t]; [simpl in H; lia|]. remember (d :: t) as l eqn:E. clear E.
  rewrite (nth_error_nth' (rev l) d) by (rewrite rev_length; lia).
  rewrite (nth_error_nth' l d) by lia.
  rewrite rev_nth by lia. 
  replace (length l - S n)%nat with (length l - 1 - n)%nat by lia. reflexivity.
Qed.

Lemma nth_error_firstn {A} (l : list A) k n :
  nth_error (firstn k l) n = if Nat.ltb n k then nth_error l n else None.
Proof.
  revert k n; induction l as [|h t IH]; intros [|k] [|n]; simpl; auto.
  - destruct (Nat.ltb _ _); auto.
  - rewrite IH. change (Nat.ltb (S n) (S k)) with (Nat.ltb n k). reflexivity.
Qed.

Lemma nth_error_skipn {A} (l : list A) k n :
  nth_error (skipn k l) n = nth_error l (k + n).
Proof.
  revert k n; induction l as [|h t IH]; intros [|k] n; simpl; auto.
  destruct n; auto.
Qed.

Lemma upd_nth_error {A} (l : list A) n m a :
  (n < length l)%nat ->
  nth_error (upd l n a) m = if Nat.eqb n m then Some a else nth_error l m.
Proof.
  intros H. destruct (Nat.eqb_spec n m) as [->|E].
  - apply upd_same; auto.
  - apply upd_other; auto.
Qed.
