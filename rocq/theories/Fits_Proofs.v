(** Proofs for C57. *)
From Coq Require Import List ZArith Bool Lia.
From Verif Require Import Base Fits_Model Fits_Spec.
Import ListNotations.
Open Scope Z_scope.

Lemma to_longlong_small z : 0 <= z < 2 ^ 63 -> to_longlong z = z.
Proof.
  intros H. unfold to_longlong, wrap, size_mod. rewrite Z.mod_small by lia.
  destruct (Z.ltb_spec z (2 ^ 63)); lia.
Qed.
Lemma to_longlong_eq z n : 0 <= z < size_mod -> 0 <= n < 2 ^ 63 -> to_longlong z = n -> z = n.
Proof.
  intros H Hn. unfold to_longlong, wrap, size_mod in *. rewrite Z.mod_small by lia.
  destruct (Z.ltb_spec z (2 ^ 63)); lia.
Qed.

Section Proofs.
Context {E : Type}.
Implicit Types (a : attempt E) (d : disk E) (l : list (attempt E)).

(** State after [n] accepted planes. *)
Definition at_plane (size planes n : nat) : image :=
  Image (Z.of_nat n * Z.of_nat size + 1) (Z.of_nat size) (Z.of_nat size * Z.of_nat planes).

Lemma new_state samples lines planes size :
  0 <= samples -> 0 <= lines -> Z.of_nat size = samples * lines ->
  (1 <= size)%nat -> Z.of_nat size * Z.of_nat planes < 2 ^ 63 -> (1 <= planes)%nat ->
  image_new samples lines (Z.of_nat planes) = at_plane size planes 0.
Proof.
  intros S L Sz N M P. unfold image_new, at_plane.
  assert (Z.of_nat size < 2 ^ 63) by nia.
  rewrite <- Sz, (to_longlong_small (Z.of_nat size)) by lia.
  rewrite to_longlong_small by nia. reflexivity.
Qed.

(** One write from a good state.  Its data size is that of an object. *)
Definition real_size a : Prop := Z.of_nat (length (a_data a)) < size_mod.

Lemma write_step size planes n a d : (2 <= size)%nat -> (n <= planes)%nat ->
  Z.of_nat size * Z.of_nat planes < 2 ^ 63 - 1 -> real_size a ->
  let ok := (n <? planes)%nat && (length (a_data a) =? size)%nat && (a_status a =? 0) in
  exists d', write a (at_plane size planes n) d = Ok (ok, at_plane size planes (if ok then S n else n), d') /\
    (ok = true -> occupies d' (Z.of_nat n * Z.of_nat size) (a_data a)) /\
    (forall e, e < Z.of_nat n * Z.of_nat size + 1 \/ Z.of_nat (S n) * Z.of_nat size < e -> d' e = d e) /\
    ((planes <= n)%nat \/ length (a_data a) <> size -> d' = d).
Proof.
  intros S N M R ok. subst ok. unfold write. cbn [at_plane im_max im_fpixel im_nelements].
  destruct (Nat.ltb_spec n planes) as [Hn|Hn]; cbn [andb].
  2: { assert (n = planes) by lia. subst n.
       destruct (Z.leb_spec (Z.of_nat size * Z.of_nat planes) (Z.of_nat planes * Z.of_nat size + 1)); [|lia].
       exists d. repeat split; intros; try discriminate; reflexivity. }
  assert (Z.of_nat n + 1 <= Z.of_nat planes) by lia.
  assert (Z.of_nat n * Z.of_nat size + Z.of_nat size <= Z.of_nat size * Z.of_nat planes) by nia.
  destruct (Z.leb_spec (Z.of_nat size * Z.of_nat planes) (Z.of_nat n * Z.of_nat size + 1)); [lia|].
  destruct (Nat.eqb_spec (length (a_data a)) size) as [Hl|Hl]; cbn [andb].
  2: { destruct (Z.eqb_spec (to_longlong (Z.of_nat (length (a_data a)))) (Z.of_nat size)) as [Q|Q]; cbn [negb].
       - exfalso. apply to_longlong_eq in Q; [lia| |]; unfold real_size in R; lia.
       - exists d. repeat split; intros; try discriminate; reflexivity. }
  rewrite Hl, to_longlong_small by nia. rewrite Z.eqb_refl. cbn [negb].
  destruct (Z.eqb_spec (a_status a) 0) as [St|St]; cbn [negb].
  - destruct (Z.ltb_spec (Z.of_nat n * Z.of_nat size + 1 + Z.of_nat size) (2 ^ 63)); [|lia].
    eexists. split; [|split; [|split]].
    + unfold at_plane. do 2 f_equal. f_equal. f_equal. lia.
    + intros _ i Hi. unfold fits_write_img.
      destruct (Z.leb_spec (Z.of_nat n * Z.of_nat size + 1) (Z.of_nat n * Z.of_nat size + 1 + Z.of_nat i)); [|lia].
      destruct (Z.ltb_spec (Z.of_nat n * Z.of_nat size + 1 + Z.of_nat i) (Z.of_nat n * Z.of_nat size + 1 + Z.of_nat size)); [|lia].
      cbn [andb]. rewrite St. cbn [Z.eqb]. f_equal. lia.
    + intros e He. unfold fits_write_img.
      destruct (Z.leb_spec (Z.of_nat n * Z.of_nat size + 1) e); [|reflexivity].
      destruct (Z.ltb_spec e (Z.of_nat n * Z.of_nat size + 1 + Z.of_nat size)); [lia|reflexivity].
    + intros [?|?]; [lia|congruence].
  - eexists. split; [reflexivity|]. split; [discriminate|]. split.
    + intros e He. unfold fits_write_img.
      destruct (Z.leb_spec (Z.of_nat n * Z.of_nat size + 1) e); [|reflexivity].
      destruct (Z.ltb_spec e (Z.of_nat n * Z.of_nat size + 1 + Z.of_nat size)); [lia|reflexivity].
    + intros [?|?]; [lia|congruence].
Qed.

(** Attempts that CFITSIO is asked to carry out all succeed. *)
Definition no_failure (size : nat) a : Prop := length (a_data a) = size -> a_status a = 0.

Theorem writes_spec size planes : (2 <= size)%nat -> Z.of_nat size * Z.of_nat planes < 2 ^ 63 - 1 ->
  forall l n d, (n <= planes)%nat -> Forall real_size l ->
  let v := verdicts size planes n l in
  exists m d', writes l (at_plane size planes n) d = Ok (v, at_plane size planes m, d') /\
    m = (n + length (accepted l v))%nat /\ (m <= planes)%nat /\
    (forall j data, nth_error (accepted l v) j = Some data ->
       length data = size /\ occupies d' (Z.of_nat (n + j) * Z.of_nat size) data) /\
    (forall e, e <= Z.of_nat n * Z.of_nat size -> d' e = d e) /\
    (forall e, Z.of_nat (S m) * Z.of_nat size < e \/ Z.of_nat planes * Z.of_nat size < e -> d' e = d e) /\
    (Forall (no_failure size) l -> forall e, Z.of_nat m * Z.of_nat size < e -> d' e = d e).
Proof.
  intros S M. induction l as [|a l IH]; intros n d N F v.
  - exists n, d. subst v. cbn [verdicts accepted writes length].
    rewrite Nat.add_0_r. split; [reflexivity|]. split; [reflexivity|]. split; [exact N|].
    split; [intros j data H; destruct j; discriminate|]. repeat split; intros; reflexivity.
  - inversion F as [|x y R F']; subst.
    destruct (write_step size planes n a d S N M R) as (d1 & W & O & U & K).
    subst v. cbn [verdicts]. set (ok := (n <? planes)%nat && (length (a_data a) =? size)%nat && (a_status a =? 0)) in *.
    cbn [writes]. rewrite W. cbn [bind].
    assert (N' : ((if ok then Datatypes.S n else n) <= planes)%nat).
    { subst ok. destruct (Nat.ltb_spec n planes); cbn [andb]; [|lia].
      destruct ((length (a_data a) =? size)%nat && (a_status a =? 0)); lia. }
    assert (Nle : (n <= if ok then Datatypes.S n else n)%nat) by (destruct ok; lia).
    destruct (IH _ d1 N' F') as (m & d' & W' & Em & Mp & A & B & C & D). rewrite W'. cbn [bind].
    exists m, d'. split; [reflexivity|]. split.
    { rewrite Em. cbn [accepted]. destruct ok; cbn [length]; lia. }
    split; [exact Mp|].
    assert (Mn : ((if ok then Datatypes.S n else n) <= m)%nat) by lia.
    split; [|split; [|split]].
    + intros j data H. cbn [accepted] in H. destruct ok eqn:Eo.
      * assert (La : length (a_data a) = size).
        { subst ok. apply andb_prop in Eo. destruct Eo as [Eo _]. apply andb_prop in Eo. destruct Eo as [_ Eo].
          now apply Nat.eqb_eq in Eo. }
        destruct j as [|j].
        -- cbn [nth_error] in H. injection H as <-. split; [exact La|]. intros i Hi.
           rewrite B.
           ++ rewrite Nat.add_0_r. apply (O eq_refl i Hi).
           ++ rewrite Nat.add_0_r. nia.
        -- cbn [nth_error] in H. replace (n + Datatypes.S j)%nat with (Datatypes.S n + j)%nat by lia. apply A. exact H.
      * apply A. exact H.
    + intros e He. rewrite B; [apply U; left; lia|]. destruct ok; nia.
    + intros e He.
      rewrite C by exact He.
      destruct (Nat.ltb_spec n planes) as [Hn|Hn]; [|now rewrite K by (left; exact Hn)].
      apply U. right. destruct He as [He|He]; [|nia]. destruct ok; nia.
    + intros NF e He. inversion NF as [|x y Na NF']; subst x y.
      rewrite (D NF' e He). destruct ok eqn:Eo.
      * apply U. right. nia.
      * subst ok. destruct (Nat.ltb_spec n planes) as [Hn|Hn]; [|now rewrite K by (left; exact Hn)].
        destruct (Nat.eqb_spec (length (a_data a)) size) as [Hl|Hl]; [|now rewrite K by (right; exact Hl)].
        rewrite (Na Hl) in Eo. discriminate.
Qed.

(** ** From the constructor *)
Theorem image_writes samples lines planes size l d :
  0 <= samples -> 0 <= lines -> Z.of_nat size = samples * lines -> (2 <= size)%nat -> (1 <= planes)%nat ->
  samples * lines * Z.of_nat planes < 2 ^ 63 - 1 -> Forall real_size l ->
  let v := verdicts size planes 0 l in
  let k := length (accepted l v) in
  exists im d', writes l (image_new samples lines (Z.of_nat planes)) d = Ok (v, im, d') /\
    (k <= planes)%nat /\
    (forall j data, nth_error (accepted l v) j = Some data ->
       length data = size /\ occupies d' (Z.of_nat j * Z.of_nat size) data) /\
    (forall e, e < 1 \/ Z.of_nat (S k) * Z.of_nat size < e \/ Z.of_nat planes * Z.of_nat size < e -> d' e = d e) /\
    (Forall (no_failure size) l -> forall e, Z.of_nat k * Z.of_nat size < e -> d' e = d e).
Proof.
  intros S L Sz N P M F v k. rewrite (new_state samples lines planes size) by lia.
  destruct (writes_spec size planes N ltac:(lia) l 0%nat d ltac:(lia) F) as (m & d' & W & Em & Mp & A & B & C & D).
  exists (at_plane size planes m), d'. fold v in W, Em, A. cbn [Nat.add] in Em. fold k in Em. subst m.
  split; [exact W|]. split; [exact Mp|]. split; [exact A|]. split.
  - intros e [H|H]; [apply B; lia|apply C; exact H].
  - exact D.
Qed.

(** The array that CFITSIO creates has exactly the elements of the planes. *)
Theorem axes_size samples lines planes : 0 <= samples -> 0 <= lines -> 1 <= planes ->
  samples < 2 ^ 63 -> lines < 2 ^ 63 -> planes < 2 ^ 63 ->
  fold_right Z.mul 1 (image_axes samples lines planes) = samples * lines * planes.
Proof.
  intros S L P S' L' P'. unfold image_axes. rewrite !to_longlong_small by lia.
  destruct (Z.ltb_spec 1 planes); cbn [firstn fold_right]; [lia|].
  replace planes with 1 by lia. lia.
Qed.

(** ** Attempts that fall outside *)
Theorem refused size planes n a d : (2 <= size)%nat -> (n <= planes)%nat ->
  Z.of_nat size * Z.of_nat planes < 2 ^ 63 - 1 -> real_size a ->
  n = planes \/ length (a_data a) <> size ->
  write a (at_plane size planes n) d = Ok (false, at_plane size planes n, d).
Proof.
  intros S N M R H. destruct (write_step size planes n a d S N M R) as (d' & W & _ & _ & K).
  rewrite W, K by (destruct H; [left; lia|right; assumption]).
  destruct (Nat.ltb_spec n planes); cbn [andb]; [|reflexivity].
  destruct (Nat.eqb_spec (length (a_data a)) size); [lia|reflexivity].
Qed.

(** A map of one element per plane cannot be completed: its last plane is
    refused. *)
Theorem single_element planes (x : E) d : (1 <= planes)%nat -> Z.of_nat planes < 2 ^ 63 ->
  exists im d', writes (repeat (Attempt [x] 0 d) planes) (image_new 1 1 (Z.of_nat planes)) d =
    Ok (repeat true (planes - 1) ++ [false], im, d') /\ d' (Z.of_nat planes) = d (Z.of_nat planes).
Proof.
  intros P M. unfold image_new. rewrite (to_longlong_small (1 * 1)) by lia.
  change (1 * 1) with 1. rewrite Z.mul_1_l, to_longlong_small by lia.
  assert (H : forall k n d0, (n + k = planes)%nat -> (1 <= k)%nat ->
    d0 (Z.of_nat planes) = d (Z.of_nat planes) ->
    exists im d', writes (repeat (Attempt [x] 0 d) k) (Image (Z.of_nat n + 1) 1 (Z.of_nat planes)) d0 =
      Ok (repeat true (k - 1) ++ [false], im, d') /\ d' (Z.of_nat planes) = d (Z.of_nat planes)).
  { induction k as [|k IH]; intros n d0 Hn Hk Hd; [lia|].
    cbn [repeat writes]. unfold write. cbn [im_max im_fpixel im_nelements a_data a_status length].
    destruct (Z.leb_spec (Z.of_nat planes) (Z.of_nat n + 1)) as [Q|Q].
    - assert (k = 0%nat) by lia. subst k. cbn [bind repeat writes]. do 2 eexists. split; [reflexivity|exact Hd].
    - change (to_longlong (Z.of_nat 1) =? 1) with true. cbn [Z.eqb negb].
      destruct (Z.ltb_spec (Z.of_nat n + 1 + 1) (2 ^ 63)); [|lia]. cbn [bind].
      match goal with |- context [writes _ _ ?dd] => destruct (IH (Datatypes.S n) dd) as (im & d' & W & Wd); [lia|lia| |] end.
      + unfold fits_write_img.
        destruct (Z.ltb_spec (Z.of_nat planes) (Z.of_nat n + 1 + 1)); [lia|]. rewrite andb_false_r. exact Hd.
      + replace (Z.of_nat (Datatypes.S n) + 1) with (Z.of_nat n + 1 + 1) in W by lia.
        rewrite W. cbn [bind]. exists im, d'. split; [|exact Wd].
        replace (Datatypes.S k - 1)%nat with (Datatypes.S (k - 1)) by lia. reflexivity. }
  apply (H planes 0%nat d); auto; lia.
Qed.
End Proofs.
