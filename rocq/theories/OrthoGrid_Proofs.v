(** Proofs about the grid of the orthographic projection (C49, C87). *)
From Coq Require Import List ZArith Reals Lra Lia Bool Psatz.
From Flocq Require Import Core BinarySingleNaN.
From Verif Require Import Base BaseFacts Flt FltFacts Num LinAlg_Model Maths_Model Maths_Spec Maths_Proofs
  Spheroid_Model Spheroid_Spec Spheroid_Proofs Proj_Model Proj_Spec Proj_Proofs ProjGrid_Proofs ProjGridR_Proofs
  Ortho_Model Ortho_Spec Ortho_Proofs OrthoVis_Proofs.
Import ListNotations.

(** * Safety, for any arithmetic *)
Section Safe.
Open Scope Z_scope.
Context {A : arith} (L : libm A) (arccos : A -> A) (to_ssize : A -> outcome Z).
Context (pro : bool) (eq pol : A) (radius : A -> A) (p : ortho A) (samples lines : Z).
Hypothesis Hmap : map_size samples lines.
Hypothesis Hc : forall x, match to_ssize x with Ok _ => True | Throw _ => False | UB u => u = ub_conversion end.
Local Notation n := (samples * lines).
Definition fine (r : outcome (list Z)) : Prop :=
  match r with Ok g => black_or_white n g | Throw _ => False | UB u => u = ub_conversion end.

Lemma fine_dot kpp sc lc nn mm g : black_or_white n g ->
  fine (ortho_dot L to_ssize radius p samples lines kpp sc lc nn mm g).
Proof.
  destruct Hmap as (S0 & L0 & Hn). intros B. unfold ortho_dot.
  match goal with |- fine (bind (to_ssize ?x) _) => pose proof (Hc x) as H1; destruct (to_ssize x) as [i|e|u] end;
    cbn [bind]; [|contradiction|exact H1].
  match goal with |- fine (bind (to_ssize ?x) _) => pose proof (Hc x) as H2; destruct (to_ssize x) as [k|e|u] end;
    cbn [bind]; [|contradiction|exact H2].
  destruct (Z.leb_spec 0 i); [|exact B]. destruct (Z.ltb_spec i samples); [|exact B].
  destruct (Z.leb_spec 0 k); [|exact B]. destruct (Z.ltb_spec k lines); [|exact B]. cbn [andb].
  change (2 ^ 64) with size_mod in Hn. rewrite (wrap_id (k * samples)) by nia. rewrite wrap_id by nia.
  destruct (put_bw n g (k * samples + i)) as (g' & -> & B'); [nia|exact B|exact B'].
Qed.

Lemma fine_dots dot : (forall m g, black_or_white n g -> fine (dot m g)) ->
  forall k m g, black_or_white n g -> fine (dots k dot m g).
Proof.
  intros H. induction k as [|k IH]; intros m g B; [exact B|]. cbn [dots].
  specialize (H m g B). destruct (dot m g); cbn [bind]; [apply IH; exact H|exact H|exact H].
Qed.

Lemma ortho_safe fuel iv jv :
  drawn n (make_grid samples lines (ortho_plot_grid L arccos to_ssize pro eq pol radius p fuel samples lines iv jv)).
Proof.
  unfold make_grid, ortho_plot_grid. destruct (map_parameters eq pol p samples lines) as [[kpp sc] lc].
  unfold then_loop.
  match goal with |- context [for_loop fuel ?t ?nx ?b ?v (repeat _ _)] =>
    pose proof (for_loop_inv t nx b (black_or_white n) (fun e => e = UB ub_conversion)) as H1;
    specialize (fun X => H1 X fuel v _ (blank_bw samples lines Hmap)) end.
  match type of H1 with ?X -> _ => assert (HX : X); [|specialize (H1 HX); clear HX] end.
  { intros v g _ B. unfold lat_line.
    match goal with |- context [match ?b with Some _ => _ | None => _ end] => destruct b as [[lo hi]|]; [|exact B] end.
    match goal with |- match dots ?k ?d ?m g with _ => _ end => assert (F : fine (dots k d m g)) end.
    { apply fine_dots; [|exact B]. intros m g' B'. destruct (drawn_longitude _ _ _ _); [apply fine_dot|]; exact B'. }
    destruct (dots _ _ _ _); cbn [fine] in F; [exact F|contradiction|congruence]. }
  destruct (for_loop _ _ _ _ _ (repeat _ _)) as [[g1|e1|u1]|]; [|discriminate H1|cbn [drawn]; congruence|exact Logic.I].
  match goal with |- context [for_loop fuel ?t ?nx ?b ?v g1] =>
    pose proof (for_loop_inv t nx b (black_or_white n) (fun e => e = UB ub_conversion)) as H2;
    specialize (fun X => H2 X fuel v _ H1) end.
  match type of H2 with ?X -> _ => assert (HX : X); [|specialize (H2 HX); clear HX] end.
  { intros v g _ B. unfold lon_line.
    match goal with |- match dots ?k ?d ?m g with _ => _ end => assert (F : fine (dots k d m g)) end.
    { apply fine_dots; [|exact B]. intros m g' B'.
      destruct (longitude_bounds _ _ _ _ _ _) as [[lo hi]|]; [|exact B'].
      destruct (drawn_longitude _ _ _ _); [apply fine_dot|]; exact B'. }
    destruct (dots _ _ _ _); cbn [fine] in F; [exact F|contradiction|congruence]. }
  destruct (for_loop _ _ _ _ _ g1) as [[g2|e2|u2]|]; [exact H2|discriminate H2|cbn [drawn]; congruence|exact Logic.I].
Qed.
End Safe.

Lemma double_ssize_safe (x : ar_double) :
  match double_ssize x with Ok _ => True | Throw _ => False | UB u => u = ub_conversion end.
Proof.
  unfold double_ssize, int_of_double. repeat match goal with |- context [if ?b then _ else _] => destruct b end; auto.
Qed.

(** * Painting by [dots] *)
Lemma dots_paint (dot : Z -> list Z -> outcome (list Z)) (N : nat) len (S : Z -> Z -> Prop) :
  (forall j q, {S j q} + {~ S j q}) ->
  (forall j g, (0 <= j < Z.of_nat N)%Z -> Z.of_nat (length g) = len -> exists g', dot j g = Ok g' /\ painted g g' (S j)) ->
  forall g, Z.of_nat (length g) = len ->
  exists g', dots N dot 0 g = Ok g' /\ painted g g' (fun q => exists j, (0 <= j < Z.of_nat N)%Z /\ S j q).
Proof.
  intros Dec Hdot.
  assert (X : forall lo m q, {exists j', (lo <= j' < lo + Z.of_nat m)%Z /\ S j' q} + {~ exists j', (lo <= j' < lo + Z.of_nat m)%Z /\ S j' q}).
  { intros lo m q. induction m as [|m IHm]; [right; intros (j' & H' & _); lia|].
    destruct IHm as [Y|Y]; [left; destruct Y as (j' & H' & Sj); exists j'; split; [lia|exact Sj]|].
    destruct (Dec (lo + Z.of_nat m)%Z q) as [D|D]; [left; eexists; split; [|exact D]; lia|].
    right. intros (j' & H' & Sj). destruct (Z.eq_dec j' (lo + Z.of_nat m)) as [->|Ne]; [auto|].
    apply Y. exists j'. split; [lia|exact Sj]. }
  assert (G : forall n j g, (0 <= j)%Z -> (j + Z.of_nat n = Z.of_nat N)%Z -> Z.of_nat (length g) = len ->
    exists g', dots n dot j g = Ok g' /\ painted g g' (fun q => exists j', (j <= j' < j + Z.of_nat n)%Z /\ S j' q)).
  { induction n as [|n IH]; intros j g Hj En Hlen.
    - exists g. split; [reflexivity|]. apply painted_none. intros q _ (j' & H' & _). lia.
    - cbn [dots]. destruct (Hdot j g) as (g1 & E1 & P1); [lia|exact Hlen|]. rewrite E1. cbn [bind].
      destruct (IH (j + 1)%Z g1) as (g2 & E2 & P2); [lia|lia|destruct P1 as [-> _]; exact Hlen|].
      exists g2. split; [exact E2|]. apply (painted_union _ _ _ _ _ _ P1 P2).
      + intros q _. apply X.
      + intros q _. split.
        * intros (j' & H' & Sj). destruct (Z.eq_dec j' j) as [->|Ne]; [left; exact Sj|].
          right. exists j'. split; [lia|exact Sj].
        * intros [Sj|(j' & H' & Sj)]; [exists j; split; [lia|exact Sj]|exists j'; split; [lia|exact Sj]]. }
  intros g Hlen. destruct (G N 0%Z g) as (g' & E & P); [lia|lia|exact Hlen|]. exists g'. auto.
Qed.

Lemma painted_ext g g' S T : painted g g' S -> (forall q, (0 <= q < Z.of_nat (length g))%Z -> (S q <-> T q)) -> painted g g' T.
Proof.
  intros [Pl P] H. split; [exact Pl|]. intros q Hq. destruct (P q Hq) as [Pa Pb].
  split; intros X; [apply Pa; now apply H|apply Pb; now rewrite H].
Qed.
